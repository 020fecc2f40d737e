(** * The hexagonal grid as a quotient of the hexagonal plane *)
From Verif Require Import Py PyFacts ListFacts Network Topology TopologySpec TopologyProofs TopologyProofs2 TopologyProofs3 TopologyProofs4.
From Verif Require Import Evolve EvolveSpec EvolveProofs EvolveStatic CaSpec CaRun CaNets FredkinProofs SandpileProofs FlakeSpec FlakeProofs HexDemo.
Open Scope string_scope.
Open Scope list_scope.
Open Scope Z_scope.

Lemma hex_lattice rows cols : 0 < rows -> 0 < cols -> 9 <= rows * cols -> Z.even rows = true ->
  exists net f, cellular_automaton2d rows cols 1 "Hex" true = Ok net /\ lattice net (rows * cols) f /\
    (forall v, 0 <= v < rows * cols -> NoDup (f v)) /\
    forall a b c d, 0 <= a < rows -> 0 <= b < cols -> 0 <= c < rows -> 0 <= d < cols ->
      (In (c * cols + d) (f (a * cols + b)) <-> torus_step rows cols (hex_offset a) a b c d).
Proof.
  intros Hr Hc Hn Hev. destruct (ca2d_ordered rows cols 1 "Hex" crit_hex Hr Hc Hn ltac:(lia) ltac:(auto)) as (net & rs & E & Erot & Ek & Hnd & Hnodes & Hv).
  set (f := fun v => match dget rs v with Some T => T | None => [] end).
  assert (Hf : forall v, 0 <= v < rows * cols -> exists T inc, dget rs v = Some T /\ f v = T /\ in_edges net v = Ok inc /\ NoDup T /\ (forall u, In u T -> 0 <= u < rows * cols) /\
    forall c d, 0 <= c < rows -> 0 <= d < cols -> (In (cell cols c d) T <-> torus_step rows cols (hex_offset (v / cols)) (v / cols) (v mod cols) c d)).
  { intros v Hvr. destruct (cell_surj rows cols v Hc Hvr) as (Ev & Ha & Hb). destruct (Hv _ _ Ha Hb) as (T & l & inc & E1 & E2 & E3 & Hasc & Hub & Hin & j & Hj & ET & En).
    rewrite <- Ev in E1, E2. exists T, inc. assert (Hp : Permutation T l) by (rewrite ET; apply rot_perm). split; [assumption|]. split; [unfold f; rewrite E1; reflexivity|]. split; [assumption|].
    split; [eapply Permutation_NoDup; [symmetry; exact Hp|apply asc_NoDup; assumption]|]. split; [intros u Hu; apply Hub; eapply Permutation_in; eassumption|].
    intros c d Hc' Hd. assert (Hsw : In (cell cols c d) T <-> In (cell cols c d) l) by (split; apply Permutation_in; [|symmetry]; assumption). rewrite Hsw, (Hin c d Hc' Hd).
    rewrite (torus_ext rows cols _ _ _ _ _ _ (hex_crit c)). split; apply hex_step_sym; assumption. }
  exists net, f. split; [assumption|]. split; [|split].
  - split; [assumption|]. split; [assumption|]. split; [|split; [apply len_of_nodes; [lia|assumption|assumption]|split]].
    + intros v Hin. apply Hnodes in Hin. destruct (Hf v Hin) as (T & inc & E1 & _ & E2 & _ & Hub & _). exists inc, T. split; [assumption|]. unfold nbrs_of. rewrite Erot. split; [assumption|].
      intros u Hu. apply Hnodes. auto.
    + intros v Hvr. destruct (Hf v Hvr) as (T & inc & E1 & E2 & _). unfold nbrs_of. rewrite Erot, E2. assumption.
    + intros v w Hvr Hw. destruct (Hf v Hvr) as (T & inc & _ & E2 & _ & _ & Hub & _). rewrite E2 in Hw. auto.
  - intros v Hvr. destruct (Hf v Hvr) as (T & inc & _ & E2 & _ & HT & _). rewrite E2. assumption.
  - intros a b c d Ha Hb Hc' Hd. destruct (Hf (a * cols + b) (cell_bound rows cols a b Ha Hb)) as (T & inc & _ & E2 & _ & _ & _ & Hin). rewrite E2.
    change (c * cols + d) with (cell cols c d). rewrite (Hin c d Hc' Hd).
    rewrite Z.div_add_l, Z.div_small, Z.add_0_r by lia. rewrite (Z.add_comm (a * cols)), Z_mod_plus_full, Z.mod_small by lia. reflexivity.
Qed.

Section Place.
  Variables (rows cols : Z).
  Hypotheses (Hrows : 4 <= rows) (Hcols : 3 <= cols) (Heven : Z.even rows = true).
  Let row r := rows / 2 + r.
  Let col q r := cols / 2 + q + ((row r + 1) / 2 - (rows / 2 + 1) / 2).

  Lemma place_eq q r : place rows cols q r = row r mod rows * cols + col q r mod cols.
  Proof. reflexivity. Qed.

  Lemma place_bound q r : 0 <= place rows cols q r < rows * cols.
  Proof. rewrite place_eq. pose proof (Z.mod_pos_bound (row r) rows ltac:(lia)). pose proof (Z.mod_pos_bound (col q r) cols ltac:(lia)). nia. Qed.

  Lemma place_surj v : 0 <= v < rows * cols -> exists q r, place rows cols q r = v.
  Proof.
    intros Hv. destruct (cell_surj rows cols v ltac:(lia) Hv) as (Ev & Ha & Hb). unfold cell in Ev.
    exists (v mod cols - cols / 2 - ((v / cols + 1) / 2 - (rows / 2 + 1) / 2)), (v / cols - rows / 2).
    rewrite place_eq. unfold col, row. replace (rows / 2 + (v / cols - rows / 2)) with (v / cols) by lia. rewrite (Z.mod_small (v / cols)) by lia.
    match goal with |- _ + ?x mod cols = _ => replace x with (v mod cols) by lia end. rewrite Z.mod_mod by lia. congruence.
  Qed.

  Lemma place_same q r q' r' : place rows cols q r = place rows cols q' r' <->
    exists m k, r' = r + k * rows /\ q' = q + m * cols - k * (rows / 2).
  Proof.
    assert (Er : rows = 2 * (rows / 2)) by (rewrite Zeven_mod in Heven; apply Zeq_bool_eq in Heven; pose proof (Z.div_mod rows 2 ltac:(lia)); lia).
    rewrite !place_eq. split.
    - intros E. pose proof (Z.mod_pos_bound (row r) rows ltac:(lia)). pose proof (Z.mod_pos_bound (col q r) cols ltac:(lia)).
      pose proof (Z.mod_pos_bound (row r') rows ltac:(lia)). pose proof (Z.mod_pos_bound (col q' r') cols ltac:(lia)).
      assert (E1 : row r mod rows = row r' mod rows) by nia. assert (E2 : col q r mod cols = col q' r' mod cols) by nia.
      pose proof (Z.div_mod (row r) rows ltac:(lia)) as D1. pose proof (Z.div_mod (row r') rows ltac:(lia)) as D2. pose proof (Z.div_mod (col q r) cols ltac:(lia)) as D3. pose proof (Z.div_mod (col q' r') cols ltac:(lia)) as D4.
      exists (col q' r' / cols - col q r / cols), (row r' / rows - row r / rows). assert (R1 : row r = rows / 2 + r) by reflexivity. assert (R2 : row r' = rows / 2 + r') by reflexivity. split; [nia|].
      assert (Erow : row r' = row r + (row r' / rows - row r / rows) * rows) by nia. set (k := row r' / rows - row r / rows) in *.
      assert (Eh : (row r' + 1) / 2 = (row r + 1) / 2 + k * (rows / 2)).
      { rewrite Erow. replace (row r + k * rows + 1) with (row r + 1 + k * (rows / 2) * 2) by nia. apply Z.div_add. lia. }
      assert (C1 : col q r = cols / 2 + q + ((row r + 1) / 2 - (rows / 2 + 1) / 2)) by reflexivity. assert (C2 : col q' r' = cols / 2 + q' + ((row r' + 1) / 2 - (rows / 2 + 1) / 2)) by reflexivity.
      rewrite Eh in C2. rewrite Z.mul_sub_distr_r. lia.
    - intros (m & k & -> & ->). assert (E1 : row (r + k * rows) = row r + k * rows) by (unfold row; lia). rewrite E1. rewrite Z_mod_plus_full. f_equal.
      unfold col. rewrite E1. replace (row r + k * rows + 1) with (row r + 1 + k * (rows / 2) * 2) by nia. rewrite Z.div_add by lia.
      match goal with |- ?x mod cols = ?y mod cols => replace y with (x + m * cols) by lia end. rewrite Z_mod_plus_full. reflexivity.
  Qed.

  (** ** the neighbourhood of a place *)
  Variable f : Z -> list Z.
  Hypothesis Hnd : forall v, 0 <= v < rows * cols -> NoDup (f v).
  Hypothesis Hub : forall v w, 0 <= v < rows * cols -> In w (f v) -> 0 <= w < rows * cols.
  Hypothesis Hin : forall a b c d, 0 <= a < rows -> 0 <= b < cols -> 0 <= c < rows -> 0 <= d < cols ->
    (In (c * cols + d) (f (a * cols + b)) <-> torus_step rows cols (hex_offset a) a b c d).

  Definition seven : list (Z * Z) := (0, 0) :: six.

  Lemma half_up a : (a + 1 + 1) / 2 - (a + 1) / 2 = if Z.even a then 1 else 0.
  Proof. pose proof (Zeven_mod a) as E. destruct (Z.even a); symmetry in E; [apply Zeq_bool_eq in E|apply Zeq_bool_neq in E]; pose proof (Z.div_mod a 2 ltac:(lia)); pose proof (Z.mod_pos_bound a 2 ltac:(lia)); pose proof (Z.div_mod (a + 1 + 1) 2 ltac:(lia)); pose proof (Z.mod_pos_bound (a + 1 + 1) 2 ltac:(lia)); pose proof (Z.div_mod (a + 1) 2 ltac:(lia)); pose proof (Z.mod_pos_bound (a + 1) 2 ltac:(lia)); lia. Qed.
  Lemma half_down a : (a - 1 + 1) / 2 - (a + 1) / 2 = if Z.even a then 0 else -1.
  Proof. pose proof (Zeven_mod a) as E. destruct (Z.even a); symmetry in E; [apply Zeq_bool_eq in E|apply Zeq_bool_neq in E]; pose proof (Z.div_mod a 2 ltac:(lia)); pose proof (Z.mod_pos_bound a 2 ltac:(lia)); pose proof (Z.div_mod (a - 1 + 1) 2 ltac:(lia)); pose proof (Z.mod_pos_bound (a - 1 + 1) 2 ltac:(lia)); pose proof (Z.div_mod (a + 1) 2 ltac:(lia)); pose proof (Z.mod_pos_bound (a + 1) 2 ltac:(lia)); lia. Qed.

  (** the step in the grid that belongs to a step in the plane *)
  Definition grid_step (a : Z) (d : Z * Z) : Z * Z := (snd d, fst d + ((a + snd d + 1) / 2 - (a + 1) / 2)).
  Lemma grid_steps a : map (grid_step a) seven = if Z.even a then [(0, 0); (0, 1); (1, 1); (1, 0); (0, -1); (-1, 0); (-1, 1)] else [(0, 0); (0, 1); (1, 0); (1, -1); (0, -1); (-1, -1); (-1, 0)].
  Proof.
    unfold seven, six, grid_step. cbn [map fst snd]. rewrite !Z.add_0_r, !Z.sub_diag. replace (a + -1) with (a - 1) by lia. rewrite half_up, half_down. destruct (Z.even a); reflexivity.
  Qed.
  Lemma grid_offset a dx dy : In (dx, dy) (map (grid_step a) seven) <-> hex_offset a dx dy.
  Proof. rewrite grid_steps. unfold hex_offset. destruct (Z.even a); cbn [In]; tauto. Qed.
  Lemma place_step q r d : place rows cols (q + fst d) (r + snd d) =
    (row r mod rows + fst (grid_step (row r) d)) mod rows * cols + (col q r mod cols + snd (grid_step (row r) d)) mod cols.
  Proof.
    rewrite place_eq, !Zplus_mod_idemp_l. unfold grid_step, col, row. cbn [fst snd]. rewrite Z.add_assoc. f_equal. f_equal. lia.
  Qed.

  Lemma place_nbrs q r : Permutation (f (place rows cols q r)) (map (fun d => place rows cols (q + fst d) (r + snd d)) seven).
  Proof.
    pose proof (Z.mod_pos_bound (row r) rows ltac:(lia)) as Ha. pose proof (Z.mod_pos_bound (col q r) cols ltac:(lia)) as Hb.
    assert (Hev : forall dx dy, hex_offset (row r mod rows) dx dy <-> hex_offset (row r) dx dy) by (intros; unfold hex_offset; rewrite even_mod_even by (assumption || lia); reflexivity).
    apply NoDup_Permutation; [apply Hnd, place_bound| |].
    - apply NoDup_map_on; [|repeat constructor; cbn [In]; intros H; repeat destruct H as [H|H]; try discriminate H; exact H].
      intros d e Hd He E. rewrite !place_step in E.
      assert (Hsmall : forall d, In d seven -> Z.abs (fst (grid_step (row r) d)) <= 1 /\ Z.abs (snd (grid_step (row r) d)) <= 1).
      { intros x Hx. assert (Hi : In (grid_step (row r) x) (map (grid_step (row r)) seven)) by (apply in_map; assumption). rewrite grid_steps in Hi.
        destruct (Z.even (row r)); cbn [In] in Hi; repeat destruct Hi as [Hi|Hi]; try contradiction; rewrite <- Hi; cbn [fst snd]; lia. }
      destruct (Hsmall d Hd) as [D1 D2]. destruct (Hsmall e He) as [F1 F2].
      set (x := fst (grid_step (row r) d)) in *. set (x' := fst (grid_step (row r) e)) in *. set (y := snd (grid_step (row r) d)) in *. set (y' := snd (grid_step (row r) e)) in *.
      pose proof (Z.mod_pos_bound (row r mod rows + x) rows ltac:(lia)). pose proof (Z.mod_pos_bound (row r mod rows + x') rows ltac:(lia)).
      pose proof (Z.mod_pos_bound (col q r mod cols + y) cols ltac:(lia)). pose proof (Z.mod_pos_bound (col q r mod cols + y') cols ltac:(lia)).
      assert (E1 : (row r mod rows + x) mod rows = (row r mod rows + x') mod rows) by nia. assert (E2 : (col q r mod cols + y) mod cols = (col q r mod cols + y') mod cols) by nia.
      apply mod_near in E1; [|lia|lia]. apply mod_near in E2; [|lia|lia]. subst x x' y y'. unfold grid_step in E1, E2. cbn [fst snd] in E1, E2. destruct d as [d1 d2], e as [e1 e2]. cbn [fst snd] in *. subst e2. f_equal. lia.
    - intros w. rewrite in_map_iff. rewrite place_eq. split.
      + intros Hw. assert (Hwr : 0 <= w < rows * cols) by (eapply Hub; [|exact Hw]; rewrite <- place_eq; apply place_bound). destruct (cell_surj rows cols w ltac:(lia) Hwr) as (Ew & Hc & Hd). unfold cell in Ew.
        rewrite Ew in Hw. apply Hin in Hw; [|assumption..]. destruct Hw as (dx & dy & Ho & E1 & E2). apply Hev, grid_offset, in_map_iff in Ho. destruct Ho as (d & Ed & Hin').
        exists d. split; [|assumption]. rewrite place_step, Ed. cbn [fst snd]. rewrite <- E1, <- E2. symmetry. assumption.
      + intros (d & <- & Hd). rewrite place_step. apply Hin; [assumption|assumption|apply Z.mod_pos_bound; lia|apply Z.mod_pos_bound; lia|].
        exists (fst (grid_step (row r) d)), (snd (grid_step (row r) d)). split; [|auto]. apply Hev, grid_offset. rewrite <- surjective_pairing. apply in_map. assumption.
  Qed.

  (** ** the automaton on the grid is the automaton on the plane *)
  Definition born (v a : Z) (l : list Z) : Z := if zsum l =? 1 then 1 else a.

  Lemma grid_snow s : (forall v, 0 <= v < rows * cols -> s v = 0 \/ s v = 1) -> forall k q r,
    ca_state f born k s (place rows cols q r) = bz (snow (fun q r => s (place rows cols q r) =? 1) k q r).
  Proof.
    intros Hs. induction k as [|k IH]; intros q r.
    - cbn [snow]. change (ca_state f born 0 s ?v) with (s v). destruct (Hs _ (place_bound q r)) as [-> | ->]; reflexivity.
    - rewrite ca_state_S, snow_S. unfold ca_next, born. rewrite (zsum_perm _ _ (Permutation_map _ (place_nbrs q r))), map_map. unfold seven. cbn [map fst snd]. change (zsum (?x :: ?l)) with (x + zsum l).
      rewrite !Z.add_0_r, IH. set (u := snow _ k). 
      match goal with |- context [zsum ?l] => replace (zsum l) with (alive_around u q r) end.
      2: { unfold alive_around. f_equal. apply map_ext. intros d. rewrite IH. reflexivity. }
      destruct (u q r); cbn [orb]; [destruct (_ =? 1); reflexivity|]. rewrite Z.add_0_l. reflexivity.
  Qed.
End Place.

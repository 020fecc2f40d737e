(** * C122: the Wireworld demos: diodes and the XOR gate *)
From Verif Require Import Py PyFacts ListFacts Network Topology TopologySpec TopologyProofs TopologyProofs2 Evolve EvolveSpec EvolveProofs EvolveStatic CaSpec CaRun CaNets Rules PropCa HopfieldSpec HopfieldProofs HopfieldProofs2 FredkinProofs SandpileProofs PropWire.
From Verif Require Import DiodeSpec DiodeProofs XorSpec XorProofs WireDemos.
Open Scope string_scope.
Open Scope list_scope.
Open Scope Z_scope.

(** ** on any network *)
(** a train of electrons goes round for ever on a closed wire that conducts, however wide it is in places, whatever the rest of the board does; on a wire that blocks, all electrons are gone after at most m timesteps *)
Theorem C122_wires : forall (U I BA BN : Type) (W : env Z Z Z BA BN) fuel (u0 : U) (n : network Z Z) nb c T (g : @args Z Z Z U I) (s : Z -> Z) m pos wire sig,
  static g (stateless wireworld_activity) -> NoDup (nodes n) -> closed n -> (forall v, In v (nodes n) -> nbrs_of n v (nb v)) ->
  1 <= T -> (Z.to_nat T <= fuel)%nat -> length (to_dict W c) = net_len n ->
  (forall v, In v (nodes n) -> dget (to_dict W c) v = Some (s v) /\ 0 <= s v <= 3) ->
  thick_wire (fun v => In v (nodes n)) nb s m pos wire -> train m sig -> (forall v, wire v -> s v = sig (pos v)) ->
  exists hs, runs W fuel u0 n c T g hs /\ nth_error hs 0 = Some (to_dict W c) /\ forall k S v, nth_error hs k = Some S -> wire v ->
    (conducts nb s m pos wire -> dget S v = Some (sig (pos v - Z.of_nat k))) /\
    (blocks nb s m pos wire -> sig 0 <> 1 -> dget S v = Some (if Z.of_nat k <=? pos v then sig (pos v - Z.of_nat k) else 3) /\ (m <= Z.of_nat k -> dget S v = Some 3)).
Proof.
  intros U I BA BN W fuel u0 n nb c T g s m pos wire sig Hst Hnd Hcl Hnb HT Hf Hlen Hs Hwire Htrain Hsig.
  destruct (C80_global_map W fuel u0 n nb c T g wireworld_activity (fun _ => wire_next) (fun a => 0 <= a <= 3) s Hst Hnd Hcl Hnb HT Hf Hlen Hs) as (hs & Hrun & Hz & Hk).
  { intros x Hd Hc Hn Hl. apply (wire_computes nb (fun v => In v (nodes n))); assumption. }
  exists hs. split; [assumption|]. split; [assumption|]. intros k S v Ek Hv. pose proof Hwire as [Hm Hall]. destruct (Hall v Hv) as (Hcell & Hp & _). rewrite (Hk k S v Ek Hcell). split.
  - intros Hc. f_equal. eapply goes_round; eassumption.
  - intros Hb Hz0. rewrite (ends nb s _ m pos wire Hwire sig Hb Htrain Hz0 Hsig k v Hv). split; [reflexivity|]. intros Hkm. destruct (Z.leb_spec (Z.of_nat k) (pos v)); [lia|reflexivity].
Qed.
Print Assumptions C122_wires.

(** ** the scripts *)
Lemma nth_error_pair {X Y} (l : list X) : forall (l' : list Y) i a b, nth_error l i = Some a -> nth_error l' i = Some b -> nth_error (combine l l') i = Some (a, b).
Proof. induction l as [|x l IH]; intros [|y l'] [|i] a b E1 E2; try discriminate; cbn [nth_error combine] in *; [congruence|apply IH; assumption]. Qed.

Section Demo.
  Context {U I BA BN : Type} (W : env Z Z Z BA BN).
  Hypothesis Hlab : forall i, e_lab W i = Z.of_nat i.

  Definition board (rows cols : Z) (init : list Z) : Prop := 3 <= rows /\ 3 <= cols /\ Z.of_nat (length init) = rows * cols /\ Forall (fun a => 0 <= a <= 3) init.
  (** [hs] are the activities of the states in the trajectory of a script *)
  Definition wire_history (rows cols : Z) (init : list Z) (T : Z) (hs : list (dict Z Z)) : Prop :=
    exists fuel (u0 : U) traj, 1 <= T /\ (Z.to_nat T <= fuel)%nat /\ wireworld_demo (I := I) W fuel u0 rows cols init T = Ok traj /\ Forall2 (fun s S => activities W s = Ok (Some S)) traj hs.

  (** the neighbourhoods of the grid *)
  Definition moore_grid (rows cols : Z) (f : Z -> list Z) : Prop :=
    (forall v, 0 <= v < rows * cols -> NoDup (f v)) /\ (forall v w, 0 <= v < rows * cols -> In w (f v) -> 0 <= w < rows * cols) /\
    forall a b c d, 0 <= a < rows -> 0 <= b < cols -> 0 <= c < rows -> 0 <= d < cols -> (In (c * cols + d) (f (a * cols + b)) <-> torus_step rows cols (offset_of "Moore" 1) a b c d).

  Lemma board_run rows cols init T fuel (u0 : U) : board rows cols init -> 1 <= T -> (Z.to_nat T <= fuel)%nat ->
    exists f traj hs, moore_grid rows cols f /\ wireworld_demo (I := I) W fuel u0 rows cols init T = Ok traj /\ Z.of_nat (length hs) = T /\ Forall2 (fun s S => activities W s = Ok (Some S)) traj hs /\
      forall k S, nth_error hs k = Some S -> forall v, 0 <= v < rows * cols -> dget S v = Some (ca_state f (fun _ => wire_next) k (at0 init) v).
  Proof.
    intros (Hr & Hc & Hl & Hb) HT Hf. destruct (torus_lattice rows cols 1 "Moore" ltac:(lia) ltac:(lia) ltac:(nia) ltac:(lia) ltac:(auto)) as (net & f & En & (Hnd & Hnodes & Hcl & Hlen & Hnb & Hub) & Hfd & Hfin).
    unfold wireworld_demo. rewrite En. cbn [rbind].
    assert (Hdict : forall v, 0 <= v < rows * cols -> dget (to_dict W (CList init)) v = Some (at0 init v)) by (intros v Hv; cbn [to_dict]; apply (dget_listed (e_lab W)); [exact Hlab|lia]).
    destruct (ca_run W fuel u0 net f (CList init) T (wireworld_args (I := I)) wireworld_activity (fun _ => wire_next) (fun a => 0 <= a <= 3) (at0 init)) as (uf & traj & hs & E & Hlh & Hsh & _ & Hkeys & Hs).
    - repeat split.
    - exact Hnd.
    - exact HT.
    - exact Hf.
    - cbn [to_dict]. unfold enumerate. rewrite map_length, combine_length, seq_length. lia.
    - exact Hcl.
    - intros v Hv. apply Hnb, Hnodes, Hv.
    - intros v Hv. apply Hdict, Hnodes, Hv.
    - intros v Hv. apply Hnodes in Hv. rewrite Forall_forall in Hb. apply Hb. unfold at0. apply nth_In. lia.
    - apply wire_computes.
    - exists f, traj, hs. split; [split; [exact Hfd|split; [exact Hub|exact Hfin]]|]. rewrite E. cbn [rbind]. split; [reflexivity|]. split; [assumption|]. split.
      + clear - Hsh Hs Hr Hc Hnodes. assert (Hne : forall k S, nth_error hs k = Some S -> S <> []).
        { intros k S Ek ->. specialize (Hs k [] Ek 0). rewrite Hnodes in Hs. specialize (Hs ltac:(nia)). discriminate. }
        clear Hs. induction Hsh as [|s S traj hs Es Hf IH]; [constructor|]. constructor; [|apply IH; intros k S' Ek; apply (Hne (Datatypes.S k)); assumption].
        rewrite Es. specialize (Hne 0%nat S eq_refl). destruct S; [contradiction|reflexivity].
      + intros k S Ek v Hv. apply (Hs k S Ek v). apply Hnodes, Hv.
  Qed.

  Lemma history_run rows cols init T hs : board rows cols init -> wire_history rows cols init T hs -> Z.of_nat (length hs) = T /\
    exists f, moore_grid rows cols f /\ forall k S, nth_error hs k = Some S -> forall v, 0 <= v < rows * cols -> dget S v = Some (ca_state f (fun _ => wire_next) k (at0 init) v).
  Proof.
    intros Hb (fuel & u0 & traj & HT & Hf & E & Hs). destruct (board_run rows cols init T fuel u0 Hb HT Hf) as (f & traj' & hs' & Hg & E' & Hlen & Hs' & H). assert (traj' = traj) by congruence. subst traj'.
    assert (hs' = hs) by (clear - Hs Hs'; revert hs' Hs'; induction Hs as [|s S traj hs Es _ IH]; intros hs' Hs'; inversion Hs'; subst; [reflexivity|]; f_equal; [congruence|auto]).
    subst hs'. eauto.
  Qed.

  Theorem C122_runs : forall rows cols init T, board rows cols init -> 1 <= T -> U -> exists hs, wire_history rows cols init T hs.
  Proof. intros rows cols init T Hb HT u0. destruct (board_run rows cols init T (Z.to_nat T) u0 Hb HT (le_n _)) as (f & traj & hs & _ & E & _ & Hs & _). exists hs, (Z.to_nat T), u0, traj. auto. Qed.

  (** a diode in the right direction: a train that travels to the right goes through it for ever, the electrons passing the hole above and below *)
  Theorem C122_passes : forall rows cols init T hs k S a p sig, board rows cols init -> wire_history rows cols init T hs -> nth_error hs k = Some S ->
    has_diode true rows cols a p (at0 init) -> train cols sig -> (forall dx dy, -1 <= dx <= 1 -> diode true cols dx dy = true -> at0 init (near rows cols a p dx dy) = sig dy) ->
    forall dx dy, -1 <= dx <= 1 -> diode true cols dx dy = true -> dget S (near rows cols a p dx dy) = Some (sig (dy - Z.of_nat k)).
  Proof.
    intros rows cols init T hs k S a p sig Hb Hh Ek Hd Ht Hs dx dy Hdx Hdy. destruct (history_run rows cols init T hs Hb Hh) as (_ & f & (G1 & G2 & G3) & Hrun). destruct Hb as (Hr & Hc & _).
    rewrite (Hrun k S Ek) by (apply near_bound; assumption). f_equal.
    assert (Hper : forall i j, i mod cols = j mod cols -> sig i = sig j) by (destruct Ht as [Hp _]; apply sig_mod; [lia|assumption]).
    rewrite (goes_round f (at0 init) _ cols (place_of cols p 0) _ (diode_wire rows cols a p f (at0 init) Hr Hc G1 G2 G3 true 0 Hd) sig (diode_conducts rows cols a p f (at0 init) Hr Hc G1 G2 G3 Hd) Ht).
    - rewrite place_near by assumption. apply Hper. rewrite Zminus_mod_idemp_l. f_equal. lia.
    - intros v (dx' & dy' & H1 & -> & H2). rewrite place_near by assumption. rewrite (Hs dx' dy' H1 H2). apply Hper. rewrite Z.mod_mod by lia. f_equal. lia.
    - exists dx, dy. auto.
  Qed.

  (** a diode in the wrong direction: after at most as many timesteps as there are columns, no electron is left *)
  Theorem C122_stops : forall rows cols init T hs k S a p sig, board rows cols init -> wire_history rows cols init T hs -> nth_error hs k = Some S ->
    has_diode false rows cols a p (at0 init) -> train cols sig -> sig 2 <> 1 -> (forall dx dy, -1 <= dx <= 1 -> diode false cols dx dy = true -> at0 init (near rows cols a p dx dy) = sig dy) ->
    forall dx dy, -1 <= dx <= 1 -> diode false cols dx dy = true ->
      dget S (near rows cols a p dx dy) = Some (if Z.of_nat k <=? (dy - 2) mod cols then sig (dy - Z.of_nat k) else 3) /\
      (cols <= Z.of_nat k -> dget S (near rows cols a p dx dy) = Some 3).
  Proof.
    intros rows cols init T hs k S a p sig Hb Hh Ek Hd Ht Hz Hs dx dy Hdx Hdy. destruct (history_run rows cols init T hs Hb Hh) as (_ & f & (G1 & G2 & G3) & Hrun). destruct Hb as (Hr & Hc & _).
    pose proof (Z.mod_pos_bound (dy - 2) cols ltac:(lia)) as Hmod.
    assert (Hper : forall i j, i mod cols = j mod cols -> sig i = sig j) by (destruct Ht as [Hp _]; apply sig_mod; [lia|assumption]).
    assert (Hmain : dget S (near rows cols a p dx dy) = Some (if Z.of_nat k <=? (dy - 2) mod cols then sig (dy - Z.of_nat k) else 3)).
    { rewrite (Hrun k S Ek) by (apply near_bound; assumption). f_equal.
      assert (Ht' : train cols (fun i => sig (i + 2))).
      { destruct Ht as [Hp Hq]. split; [intros i; rewrite <- (Hp (i + 2)); f_equal; lia|]. intros i. specialize (Hq (i + 2)). replace (i - 1 + 2) with (i + 2 - 1) by lia. exact Hq. }
      rewrite (ends f (at0 init) _ cols (place_of cols p 2) _ (diode_wire rows cols a p f (at0 init) Hr Hc G1 G2 G3 false 2 Hd) (fun i => sig (i + 2)) (diode_blocks rows cols a p f (at0 init) Hr Hc G1 G2 G3 Hd) Ht' Hz).
      - rewrite place_near by assumption. destruct (Z.leb_spec (Z.of_nat k) ((dy - 2) mod cols)); [|reflexivity]. apply Hper. replace ((dy - 2) mod cols - Z.of_nat k + 2) with ((dy - 2) mod cols - (Z.of_nat k - 2)) by lia. rewrite Zminus_mod_idemp_l. f_equal. lia.
      - intros v (dx' & dy' & H1 & -> & H2). rewrite place_near by assumption. rewrite (Hs dx' dy' H1 H2). apply Hper. rewrite Zplus_mod_idemp_l. f_equal. lia.
      - exists dx, dy. auto. }
    split; [exact Hmain|]. intros Hk. rewrite Hmain. destruct (Z.leb_spec (Z.of_nat k) ((dy - 2) mod cols)); [lia|reflexivity].
  Qed.

  (** the XOR gate, anywhere on a board: if the two input cells show streams of bits, six timesteps apart, then the output cell shows the exclusive or of the streams, ten timesteps later *)
  Theorem C122_xor : forall rows cols init T hs a p x y, board rows cols init -> wire_history rows cols init T hs -> has_gate rows cols a p (at0 init) ->
    (forall k S, nth_error hs k = Some S -> dget S (near rows cols a p (fst upper_in) (snd upper_in)) = Some (pulse x (Z.of_nat k)) /\ dget S (near rows cols a p (fst lower_in) (snd lower_in)) = Some (pulse y (Z.of_nat k))) ->
    (forall i d b, nth_error gate i = Some d -> nth_error (gate_alone x y (-12) 12) i = Some b -> at0 init (near rows cols a p (fst d) (snd d)) = b) ->
    forall k S, nth_error hs k = Some S -> dget S (near rows cols a p (fst output) (snd output)) = Some (pulse (fun n => xorb (x n) (y n)) (Z.of_nat k - 10)).
  Proof.
    intros rows cols init T hs a p x y Hb Hh Hg Hio H0 k S Ek. destruct (history_run rows cols init T hs Hb Hh) as (_ & f & (G1 & G2 & G3) & Hrun). destruct Hb as (Hr & Hc & _).
    rewrite (Hrun k S Ek) by (apply near_bound; assumption). f_equal.
    assert (Hlt : (k < length hs)%nat) by (apply nth_error_Some; congruence).
    apply (gate_xor rows cols a p f (at0 init) Hr Hc G1 G2 G3 Hg x y (length hs)).
    - intros j Hj. destruct (nth_error hs j) as [S'|] eqn:E; [|apply nth_error_None in E; lia]. destruct (Hio j S' E) as [H1 _]. rewrite (Hrun j S' E) in H1 by (apply near_bound; assumption). congruence.
    - intros j Hj. destruct (nth_error hs j) as [S'|] eqn:E; [|apply nth_error_None in E; lia]. destruct (Hio j S' E) as [_ H1]. rewrite (Hrun j S' E) in H1 by (apply near_bound; assumption). congruence.
    - intros d b Hd. cbn [ca_state]. apply In_nth_error in Hd. destruct Hd as [i Ei].
      assert (E : nth_error gate i = Some d /\ nth_error (gate_alone x y (-12) 12) i = Some b).
      { clear - Ei. revert Ei. generalize (gate_alone x y (-12) 12) as g. revert i. induction gate as [|c l IH]; intros i g Ei; [destruct i; discriminate|]. destruct g as [|b0 g]; [destruct i; discriminate|].
        destruct i as [|i]; cbn [nth_error combine] in *; [injection Ei as -> ->; auto|apply IH; assumption]. }
      destruct E as [E1 E2]. exact (H0 i d b E1 E2).
    - lia.
  Qed.

  (** a gate that starts at rest, with streams that have no bits before the start *)
  Corollary C122_xor_from_rest : forall rows cols init T hs a p x y, board rows cols init -> wire_history rows cols init T hs -> has_gate rows cols a p (at0 init) ->
    (forall n, n < 0 -> x n = false /\ y n = false) ->
    (forall k S, nth_error hs k = Some S -> dget S (near rows cols a p (fst upper_in) (snd upper_in)) = Some (pulse x (Z.of_nat k)) /\ dget S (near rows cols a p (fst lower_in) (snd lower_in)) = Some (pulse y (Z.of_nat k))) ->
    (forall d, In d gate -> at0 init (near rows cols a p (fst d) (snd d)) = 3) ->
    forall k S, nth_error hs k = Some S -> dget S (near rows cols a p (fst output) (snd output)) = Some (pulse (fun n => xorb (x n) (y n)) (Z.of_nat k - 10)).
  Proof.
    intros rows cols init T hs a p x y Hb Hh Hg Hneg Hio H0. eapply C122_xor; try eassumption. intros i d b Ed Eb.
    rewrite (H0 d) by (eapply nth_error_In; exact Ed).
    assert (E : gate_alone x y (-12) 12 = rest).
    { replace 12%nat with (12 + 6 * 0)%nat by lia. rewrite gate_memory. change (Z.of_nat 0 - 2) with (-2). change (Z.of_nat 0 - 1) with (-1).
      destruct (Hneg (-2) ltac:(lia)) as [-> ->]. destruct (Hneg (-1) ltac:(lia)) as [-> ->]. apply gate_rest. }
    rewrite E in Eb. unfold rest in Eb. apply nth_error_In, in_map_iff in Eb. destruct Eb as (? & <- & _). reflexivity.
  Qed.

  Lemma wire_next_count a l l' : count l 1 = count l' 1 -> wire_next a l = wire_next a l'.
  Proof. intros E. unfold wire_next. rewrite E. reflexivity. Qed.
  Lemma around9_perm : Permutation ((0, 0) :: eight) around9.
  Proof. exact (Permutation_middle [(-1, -1); (-1, 0); (-1, 1); (0, -1)] [(0, 1); (1, -1); (1, 0); (1, 1)] (0, 0)). Qed.

  (** ** the whole board, one timestep at a time *)
  Definition around_cell (rows cols v : Z) : list Z := map (fun e => near rows cols (v / cols) (v mod cols) (fst e) (snd e)) around9.
  Definition board_next (rows cols : Z) (l : list Z) : list Z := map (fun v => wire_next (at0 l v) (map (at0 l) (around_cell rows cols v))) (zrange 0 (rows * cols)).

  Lemma board_states rows cols f init : 3 <= rows -> 3 <= cols -> moore_grid rows cols f ->
    forall k v, 0 <= v < rows * cols -> ca_state f (fun _ => wire_next) k (at0 init) v = at0 (Nat.iter k (board_next rows cols) init) v.
  Proof.
    intros Hr Hc (G1 & G2 & G3). induction k as [|k IH]; intros v Hv; [reflexivity|]. rewrite ca_state_S. unfold ca_next. rewrite (IH v Hv). change (Nat.iter (S k) (board_next rows cols) init) with (board_next rows cols (Nat.iter k (board_next rows cols) init)). set (l := Nat.iter k _ init) in *. unfold board_next. rewrite at0_map by assumption.
    assert (Hp : Permutation (f v) (around_cell rows cols v)).
    { assert (Ev : v = near rows cols (v / cols) (v mod cols) 0 0).
      { unfold near. rewrite !Z.add_0_r, Z.mod_mod by lia. rewrite (Z.mod_small (v / cols)); [pose proof (Z.div_mod v cols ltac:(lia)); lia|]. split; [apply Z.div_pos; lia|apply Z.div_lt_upper_bound; nia]. }
      rewrite Ev at 1. rewrite (near_nbrs rows cols (v / cols) (v mod cols) f Hr Hc G1 G2 G3 0 0). unfold around_cell. rewrite <- around9_perm. reflexivity. }
    assert (Hcount : count (map (ca_state f (fun _ => wire_next) k (at0 init)) (f v)) 1 = count (map (at0 l) (around_cell rows cols v)) 1).
    { rewrite (map_ext_in _ (at0 l)) by (intros w Hw; apply IH; eapply G2; eassumption). rewrite !count_filter. apply filter_same_length. exact Hp. }
    apply wire_next_count. exact Hcount.
  Qed.

  (** what happens on a board is decided by [board_next] alone *)
  Theorem C122_boards : forall rows cols init T hs k S v, board rows cols init -> wire_history rows cols init T hs -> nth_error hs k = Some S -> 0 <= v < rows * cols ->
    dget S v = Some (at0 (Nat.iter k (board_next rows cols) init) v) /\ (at0 init v = 0 -> dget S v = Some 0).
  Proof.
    intros rows cols init T hs k S v Hb Hh Ek Hv. destruct (history_run rows cols init T hs Hb Hh) as (_ & f & Hg & Hrun). destruct Hb as (Hr & Hc & _). split.
    - rewrite (Hrun k S Ek v Hv), (board_states rows cols f init Hr Hc Hg k v Hv). reflexivity.
    - intros E. rewrite (Hrun k S Ek v Hv), (proj2 (empty_stays f (at0 init) k v) E). reflexivity.
  Qed.

  (** *** wireworld_diodes_demo.py *)
  Lemma near_mod rows cols a p dx dy : 3 <= cols -> near rows cols a p dx (dy mod cols) = near rows cols a p dx dy.
  Proof. intros Hc. unfold near. rewrite Zplus_mod_idemp_r. reflexivity. Qed.
  Lemma diode_mod right cols dx dy : 3 <= cols -> diode right cols dx (dy mod cols) = diode right cols dx dy.
  Proof. intros Hc. unfold diode. rewrite Z.mod_mod by lia. reflexivity. Qed.
  Definition shows_diode (right : bool) (rows cols a p : Z) (l : list Z) : bool :=
    forallb (fun dx => forallb (fun dy => Bool.eqb (negb (at0 l (near rows cols a p dx dy) =? 0)) (diode right cols dx dy)) (zrange 0 cols)) (zrange (-2) 3).
  Lemma shows_diode_right right rows cols a p l : 3 <= cols -> shows_diode right rows cols a p l = true -> has_diode right rows cols a p (at0 l).
  Proof.
    intros Hc H dx dy Hdx. unfold shows_diode in H. rewrite forallb_forall in H. assert (Hdx' : In dx (zrange (-2) 3)) by (apply in_zrange; lia). specialize (H dx Hdx'). rewrite forallb_forall in H.
    specialize (H (dy mod cols) (proj2 (in_zrange _ _ _) (Z.mod_pos_bound dy cols ltac:(lia)))). apply eqb_prop in H. rewrite near_mod, diode_mod in H by assumption. rewrite <- H. destruct (Z.eqb_spec (at0 l (near rows cols a p dx dy)) 0) as [E|E]; cbn [negb]; split; intros; congruence.
  Qed.
  Definition shows_train (right : bool) (rows cols a p : Z) (l : list Z) (sig : Z -> Z) : bool :=
    forallb (fun dx => forallb (fun dy => negb (diode right cols dx dy) || (at0 l (near rows cols a p dx dy) =? sig dy)) (zrange 0 cols)) (zrange (-1) 2).
  Lemma shows_train_right right rows cols a p l sig : 3 <= cols -> train cols sig -> shows_train right rows cols a p l sig = true ->
    forall dx dy, -1 <= dx <= 1 -> diode right cols dx dy = true -> at0 l (near rows cols a p dx dy) = sig dy.
  Proof.
    intros Hc [Hper _] H dx dy Hdx Hd. unfold shows_train in H. rewrite forallb_forall in H. assert (Hdx' : In dx (zrange (-1) 2)) by (apply in_zrange; lia). specialize (H dx Hdx'). rewrite forallb_forall in H.
    specialize (H (dy mod cols) (proj2 (in_zrange _ _ _) (Z.mod_pos_bound dy cols ltac:(lia)))). cbv beta in H. rewrite near_mod, diode_mod, Hd in H by assumption. cbn [negb orb] in H. apply Z.eqb_eq in H. rewrite H. apply (sig_mod cols sig); [lia|exact Hper|]. apply Z.mod_mod. lia.
  Qed.
  Lemma train_shift m sig c : train m sig -> train m (fun i => sig (c + i)).
  Proof.
    intros [Hp Hq]. split; [intros i; rewrite <- (Hp (c + i)); f_equal; lia|]. intros i. specialize (Hq (c + i)). replace (c + i - 1) with (c + (i - 1)) in Hq by lia. exact Hq.
  Qed.
  Lemma board_literal rows cols l : 3 <= rows -> 3 <= cols -> Z.of_nat (length l) = rows * cols -> forallb (fun a => (0 <=? a) && (a <=? 3)) l = true -> board rows cols l.
  Proof. intros Hr Hc Hl H. split; [assumption|]. split; [assumption|]. split; [assumption|]. apply Forall_forall. intros a Ha. rewrite forallb_forall in H. specialize (H a Ha). lia. Qed.
  Lemma diodes_is_board : board 13 14 diodes_board.
  Proof. apply board_literal; [lia|lia|reflexivity|vm_compute; reflexivity]. Qed.

  (** the electron on the upper wire (row 3) goes round for ever, once every 14 timesteps; the one on the lower wire (row 9) is gone from the state of timestep 8 on *)
  Theorem C122_diodes : forall T hs k S, wire_history 13 14 diodes_board T hs -> nth_error hs k = Some S ->
    (forall dx dy, -1 <= dx <= 1 -> diode true 14 dx dy = true -> dget S (near 13 14 3 7 dx dy) = Some (one_electron 14 (7 + dy - Z.of_nat k))) /\
    (forall dx dy, -1 <= dx <= 1 -> diode false 14 dx dy = true -> dget S (near 13 14 9 6 dx dy) = Some (if Z.of_nat k <=? (dy - 2) mod 14 then one_electron 14 (6 + dy - Z.of_nat k) else 3) /\
      (8 <= Z.of_nat k -> dget S (near 13 14 9 6 dx dy) = Some 3)) /\
    (forall v, 0 <= v < 13 * 14 -> at0 diodes_board v = 0 -> dget S v = Some 0).
  Proof.
    intros T hs k S Hh Ek. pose proof diodes_is_board as Hb. pose proof (C96_one_electron 14 ltac:(lia)) as Ht. split; [|split].
    - intros dx dy Hdx Hdy. replace (7 + dy - Z.of_nat k) with (7 + (dy - Z.of_nat k)) by lia. refine (C122_passes 13 14 diodes_board T hs k S 3 7 (fun i => one_electron 14 (7 + i)) Hb Hh Ek _ _ _ dx dy Hdx Hdy).
      + apply shows_diode_right; [lia|vm_compute; reflexivity].
      + apply train_shift. exact Ht.
      + apply shows_train_right; [lia|apply train_shift; exact Ht|vm_compute; reflexivity].
    - intros dx dy Hdx Hdy. replace (6 + dy - Z.of_nat k) with (6 + (dy - Z.of_nat k)) by lia.
      assert (Hs : dget S (near 13 14 9 6 dx dy) = Some (if Z.of_nat k <=? (dy - 2) mod 14 then one_electron 14 (6 + (dy - Z.of_nat k)) else 3)).
      { refine (proj1 (C122_stops 13 14 diodes_board T hs k S 9 6 (fun i => one_electron 14 (6 + i)) Hb Hh Ek _ _ _ _ dx dy Hdx Hdy)).
        - apply shows_diode_right; [lia|vm_compute; reflexivity].
        - apply train_shift. exact Ht.
        - vm_compute. discriminate.
        - apply shows_train_right; [lia|apply train_shift; exact Ht|vm_compute; reflexivity]. }
      split; [exact Hs|]. intros Hk. rewrite Hs. destruct (Z.leb_spec (Z.of_nat k) ((dy - 2) mod 14)) as [Hle|]; [|reflexivity]. f_equal. unfold one_electron.
      pose proof (Z.mod_pos_bound (dy - 2) 14 ltac:(lia)) as Hm.
      assert (E : (6 + (dy - Z.of_nat k)) mod 14 = (dy - 2) mod 14 - Z.of_nat k + 8). { symmetry. apply (Z.mod_unique _ _ ((dy - 2) / 14)); [lia|]. pose proof (Z.div_mod (dy - 2) 14 ltac:(lia)). lia. }
      rewrite E. destruct (Z.eqb_spec ((dy - 2) mod 14 - Z.of_nat k + 8) 1); [lia|]. destruct (Z.eqb_spec ((dy - 2) mod 14 - Z.of_nat k + 8) 0); [lia|]. reflexivity.
    - intros v Hv E. exact (proj2 (C122_boards 13 14 diodes_board T hs k S v Hb Hh Ek Hv) E).
  Qed.

  (** *** wireworld_xor_demo.py *)
  Lemma xor_is_board : board 13 24 xor_board.
  Proof. apply board_literal; [lia|lia|reflexivity|vm_compute; reflexivity]. Qed.
  Lemma xor_period : Nat.iter 18 (board_next 13 24) xor_board = xor_board.
  Proof. vm_compute. reflexivity. Qed.
  Lemma iter_add {X} (h : X -> X) m n a : Nat.iter (m + n) h a = Nat.iter m h (Nat.iter n h a).
  Proof. induction m as [|m IH]; [reflexivity|]. cbn [Nat.add]. change (h (Nat.iter (m + n) h a) = h (Nat.iter m h (Nat.iter n h a))). rewrite IH. reflexivity. Qed.
  Lemma iter_period {X} (h : X -> X) m a : (m <> 0)%nat -> Nat.iter m h a = a -> forall k, Nat.iter k h a = Nat.iter (k mod m) h a.
  Proof.
    intros Hm E k. assert (Ek : k = (m * (k / m) + k mod m)%nat) by (apply Nat.div_mod; exact Hm). transitivity (Nat.iter (k mod m + m * (k / m)) h a); [rewrite (Nat.add_comm (k mod m)), <- Ek; reflexivity|]. rewrite iter_add. f_equal. generalize (k / m)%nat as q. induction q as [|q IH]; [rewrite Nat.mul_0_r; reflexivity|]. rewrite Nat.mul_succ_r, iter_add, E. exact IH.
  Qed.
  Lemma xor_cells k : Nat.iter k (board_next 13 24) xor_board = Nat.iter (k mod 18) (board_next 13 24) xor_board.
  Proof. apply iter_period; [discriminate|exact xor_period]. Qed.

  (** the streams that the loops of the board feed into the gate *)
  Definition script_x (n : Z) : bool := negb (n mod 3 =? 1).
  Definition script_y (n : Z) : bool := negb (n mod 3 =? 2).
  Lemma pulse_period x k : (forall n, x (n mod 3) = x n) -> pulse x (Z.of_nat k) = pulse x (Z.of_nat (k mod 18)).
  Proof.
    intros Hx. rewrite Nat2Z.inj_mod. change (Z.of_nat 18) with 18. set (z := Z.of_nat k). unfold pulse. pose proof (Z.div_mod z 18 ltac:(lia)) as E.
    assert (E1 : z mod 18 mod 6 = z mod 6). { symmetry. rewrite E at 1. replace (18 * (z / 18) + z mod 18) with (z mod 18 + (3 * (z / 18)) * 6) by lia. apply Z.mod_add. lia. }
    assert (E2 : z / 6 = z mod 18 / 6 + (z / 18) * 3). { rewrite E at 1. replace (18 * (z / 18) + z mod 18) with (z mod 18 + (3 * (z / 18)) * 6) by lia. rewrite Z.div_add by lia. lia. }
    rewrite E1, E2. rewrite <- (Hx (z mod 18 / 6 + z / 18 * 3)), Z.mod_add, Hx by lia. reflexivity.
  Qed.
  (** what has to be checked of the first 18 boards *)
  Fixpoint film (n : nat) (l : list Z) : list (list Z) := match n with O => [] | S n => l :: film n (board_next 13 24 l) end.
  Lemma film_nth n : forall l k, (k < n)%nat -> nth_error (film n l) k = Some (Nat.iter k (board_next 13 24) l).
  Proof.
    induction n as [|n IH]; intros l k Hk; [lia|]. destruct k as [|k]; [reflexivity|]. cbn [film nth_error]. rewrite IH by lia. replace (S k) with (k + 1)%nat by lia. rewrite iter_add. reflexivity.
  Qed.
  Definition frame_right (f : nat * list Z) : bool :=
    (at0 (snd f) (3 * 24 + 12) =? pulse script_x (Z.of_nat (fst f))) && (at0 (snd f) (9 * 24 + 12) =? pulse script_y (Z.of_nat (fst f))) &&
    Bool.eqb (at0 (snd f) (6 * 24 + 22) =? 1) ((fst f =? 4) || (fst f =? 16))%nat.
  Lemma frames_check : forallb frame_right (combine (seq 0 18) (film 18 xor_board)) = true.
  Proof. vm_compute. reflexivity. Qed.
  Lemma frames k : frame_right (k mod 18, Nat.iter (k mod 18) (board_next 13 24) xor_board)%nat = true.
  Proof.
    pose proof frames_check as H. rewrite forallb_forall in H. apply H. assert (Hk : (k mod 18 < 18)%nat) by (apply Nat.mod_upper_bound; discriminate).
    apply (nth_error_In _ (k mod 18)%nat). apply nth_error_pair; [|apply film_nth; exact Hk]. rewrite (nth_error_nth' _ 0%nat) by (rewrite seq_length; exact Hk). f_equal. rewrite seq_nth by exact Hk. reflexivity.
  Qed.

  (** the gate of the script sees the streams 101101... and 110110... at its inputs, and shows 011011... at its output, for ever; every cell of the board repeats what it did 18 timesteps before *)
  Theorem C122_xor_script : forall T hs k S, wire_history 13 24 xor_board T hs -> nth_error hs k = Some S ->
    dget S (3 * 24 + 12) = Some (pulse script_x (Z.of_nat k)) /\ dget S (9 * 24 + 12) = Some (pulse script_y (Z.of_nat k)) /\
    dget S (6 * 24 + 22) = Some (pulse (fun n => xorb (script_x n) (script_y n)) (Z.of_nat k - 10)) /\
    (dget S (6 * 24 + 22) = Some 1 <-> (k mod 18 = 4 \/ k mod 18 = 16)%nat) /\
    forall S' v, nth_error hs (k + 18) = Some S' -> 0 <= v < 13 * 24 -> dget S' v = dget S v.
  Proof.
    intros T hs k S Hh Ek. pose proof xor_is_board as Hb.
    assert (Hin : forall k S, nth_error hs k = Some S -> dget S (3 * 24 + 12) = Some (pulse script_x (Z.of_nat k)) /\ dget S (9 * 24 + 12) = Some (pulse script_y (Z.of_nat k))).
    { clear k S Ek. intros k S Ek. rewrite (proj1 (C122_boards 13 24 xor_board T hs k S (3 * 24 + 12) Hb Hh Ek ltac:(lia))), (proj1 (C122_boards 13 24 xor_board T hs k S (9 * 24 + 12) Hb Hh Ek ltac:(lia))), xor_cells.
      rewrite (pulse_period script_x), (pulse_period script_y) by (intros n; unfold script_x, script_y; rewrite Z.mod_mod by lia; reflexivity).
      pose proof (frames k) as H. unfold frame_right in H. cbn [fst snd] in H. apply andb_true_iff in H. destruct H as [H _].
      apply andb_true_iff in H. destruct H as [H1 H2]. apply Z.eqb_eq in H1, H2. rewrite H1, H2. auto. }
    destruct (Hin k S Ek) as [H1 H2]. split; [exact H1|]. split; [exact H2|]. split; [|split].
    - change (6 * 24 + 22) with (near 13 24 3 12 (fst output) (snd output)). refine (C122_xor 13 24 xor_board T hs 3 12 script_x script_y Hb Hh _ Hin _ k S Ek).
      + intros c e Hc He.
        assert (H : forallb (fun c => forallb (fun e => let d := (fst c + fst e, snd c + snd e) in Bool.eqb (negb (at0 xor_board (near 13 24 3 12 (fst d) (snd d)) =? 0)) (eqb d upper_in || eqb d lower_in || existsb (eqb d) gate)) around9) gate = true) by (vm_compute; reflexivity).
        rewrite forallb_forall in H. specialize (H c Hc). rewrite forallb_forall in H. specialize (H e He). cbv zeta in *. set (d := (fst c + fst e, snd c + snd e)) in *. apply eqb_prop in H.
        assert (Hd : eqb d upper_in || eqb d lower_in || existsb (eqb d) gate = true <-> d = upper_in \/ d = lower_in \/ In d gate).
        { rewrite !orb_true_iff, !eqb_true, existsb_exists. split.
          - intros [[H'|H']|(d' & H' & E)]; [auto|auto|]. apply (proj1 (eqb_true _ _)) in E. subst d'. auto.
          - intros [H'|[H'|H']]; [auto|auto|]. right. exists d. rewrite eqb_refl. auto. }
        rewrite <- Hd, <- H. destruct (Z.eqb_spec (at0 xor_board (near 13 24 3 12 (fst d) (snd d))) 0) as [E|E]; cbn [negb]; split; intros; congruence.
      + intros i d b Ed Eb.
        assert (H : forallb (fun c => at0 xor_board (near 13 24 3 12 (fst (fst c)) (snd (fst c))) =? snd c) (combine gate (gate_alone script_x script_y (-12) 12)) = true) by (vm_compute; reflexivity).
        rewrite forallb_forall in H. specialize (H (d, b)). apply Z.eqb_eq. apply H. eapply nth_error_In. apply (nth_error_pair gate _ i); eassumption.
    - rewrite (proj1 (C122_boards 13 24 xor_board T hs k S (6 * 24 + 22) Hb Hh Ek ltac:(lia))), xor_cells.
      pose proof (frames k) as H. unfold frame_right in H. cbn [fst snd] in H. apply andb_true_iff in H. destruct H as [_ H].
      apply eqb_prop in H. rewrite <- !Nat.eqb_eq, <- orb_true_iff, <- H, Z.eqb_eq. split; [intros E; congruence|intros ->; reflexivity].
    - intros S' v Ek' Hv. rewrite (proj1 (C122_boards 13 24 xor_board T hs k S v Hb Hh Ek Hv)), (proj1 (C122_boards 13 24 xor_board T hs (k + 18) S' v Hb Hh Ek' Hv)), iter_add, xor_period. reflexivity.
  Qed.
End Demo.
Print Assumptions C122_runs.
Print Assumptions C122_passes.
Print Assumptions C122_stops.
Print Assumptions C122_xor.
Print Assumptions C122_xor_from_rest.
Print Assumptions C122_boards.
Print Assumptions C122_diodes.
Print Assumptions C122_xor_script.

(** the hypotheses are met by the boards of the scripts, and the scripts' numbers of timesteps *)
Example C122_diodes_example : board 13 14 diodes_board /\ board 13 24 xor_board /\ has_diode true 13 14 3 7 (at0 diodes_board) /\ has_diode false 13 14 9 6 (at0 diodes_board) /\
  diode true 14 (-1) (-1) = true /\ diode true 14 0 0 = false /\ near 13 14 3 7 (-1) (-1) = 2 * 14 + 6 /\
  map (fun dy => one_electron 14 (7 + dy)) (zrange (-7) 0) = [2; 1; 3; 3; 3; 3; 3].
Proof.
  split; [apply diodes_is_board|]. split; [apply xor_is_board|]. split; [apply shows_diode_right; [lia|vm_compute; reflexivity]|]. split; [apply shows_diode_right; [lia|vm_compute; reflexivity]|]. vm_compute. repeat split.
Qed.
(** the gate alone computes with any streams; here 1010 and 1100 *)
Example C122_xor_example : map (fun k => nth out_index (gate_alone (fun n => (0 <=? n) && (n mod 2 =? 0)) (fun n => (0 <=? n) && (n mod 4 <? 2)) (-12) (12 + k)) 0) [10; 16; 17; 22; 28; 34; 40; 41]%nat = [3; 1; 2; 1; 3; 3; 1; 2].
Proof. vm_compute. reflexivity. Qed.

(** Property theorems for the patterns of the Game of Life demo (C95). *)
From Verif Require Import Py PyFacts ListFacts Network Topology Evolve EvolveSpec EvolveProofs EvolveStatic Rules RulesSpec RulesProofs LifeProofs LifeSpec LifePlane PropEvolve PropRules.
Open Scope string_scope.
Open Scope list_scope.
Open Scope Z_scope.

(** the demo's call: evolve with game_of_life_rule on the rows x cols Moore torus for T timesteps
    (demos/game_of_life/game_of_life_demo.py:6,32-33), the grid after k timesteps being entry k of [hs] *)
Definition life_run {U I BA BN} (W : env Z Z Z BA BN) rows cols (c : cond Z Z) T (g : @args Z Z Z U I) fuel (u0 : U) (hs : list (dict Z Z)) : Prop :=
  exists ordered net uf traj, cellular_automaton2d rows cols 1 "Moore" ordered = Ok net /\
    evolve W fuel u0 net (Some c) (Some T) None g = Ok (uf, traj) /\ Z.of_nat (length hs) = T /\
    Forall2 (fun s S => activities W s = Ok (Some S)) traj hs /\ nth_error hs 0 = Some (to_dict W c).
Definition plain_life {U I} (g : @args Z Z Z U I) : Prop :=
  g_rule g = Some (stateless game_of_life_rule) /\ g_topo g = None /\ g_pert g = None /\ g_memo g = false /\ g_comp g = false /\ g_pact g = true.

(** C95: on the torus the pattern does what it does on the infinite plane, as long as it leaves two rows and two columns free *)
Theorem C95_plane : forall (U I BA BN : Type) (W : env Z Z Z BA BN) rows cols fuel (u0 : U) c T (g : @args Z Z Z U I) (P : nat -> pattern),
  3 <= rows -> 3 <= cols -> plain_life g -> 1 <= T -> (Z.to_nat T <= fuel)%nat ->
  Z.of_nat (length (to_dict W c)) = rows * cols -> grid01 (rows * cols) (to_dict W c) ->
  rolled_up rows cols (P 0%nat) (to_dict W c) -> (forall k, generation (P k) (P (Datatypes.S k))) ->
  (forall k, Z.of_nat k + 1 < T -> fits rows cols (P k)) ->
  exists hs, life_run W rows cols c T g fuel u0 hs /\ forall k S, nth_error hs k = Some S -> rolled_up rows cols (P k) S.
Proof.
  intros U I BA BN W rows cols fuel u0 c T g P Hr Hc Hg HT Hf Hl H01 H0 Hgen Hfit.
  destruct (C33_game_of_life U I BA BN W rows cols true fuel u0 c T g Hr Hc Hg HT Hf Hl H01) as (net & uf & traj & hs & En & Ee & Elen & Hshow & _ & Hz & Hstep).
  exists hs. split; [exists true, net, uf, traj; auto|]. induction k as [|k IH]; intros S Ek.
  - rewrite Hz in Ek. injection Ek as <-. assumption.
  - assert (Hk : (Datatypes.S k < length hs)%nat) by (apply nth_error_Some; congruence).
    destruct (nth_error hs k) as [S0|] eqn:E0; [|apply nth_error_None in E0; lia].
    apply (plane_step rows cols Hr Hc (P k) _ S0 S); [apply Hfit; lia|auto|apply Hgen|]. intros a b. apply (Hstep k S0 S a b E0 Ek).
Qed.
Print Assumptions C95_plane.

(** a pattern that comes back after some generations, moved by (di, dj) *)
Definition comes_back (phases : list pattern) (di dj : Z) : Prop :=
  phases <> [] /\
  (forall k P Q, nth_error phases k = Some P -> nth_error phases (S k) = Some Q -> generation P Q) /\
  forall P Q, hd_error phases = Some P -> nth_error phases (length phases - 1) = Some Q -> generation Q (moved di dj P).

(** so it does for ever, on every torus on which its phases fit: after m cycles and r more timesteps it is in phase r, moved by
    m times (di, dj) *)
Theorem C95_comes_back : forall (U I BA BN : Type) (W : env Z Z Z BA BN) rows cols fuel (u0 : U) c T (g : @args Z Z Z U I) phases di dj i j P0,
  comes_back phases di dj -> hd_error phases = Some P0 ->
  3 <= rows -> 3 <= cols -> (forall P, In P phases -> fits rows cols P) ->
  plain_life g -> 1 <= T -> (Z.to_nat T <= fuel)%nat ->
  Z.of_nat (length (to_dict W c)) = rows * cols -> grid01 (rows * cols) (to_dict W c) ->
  rolled_up rows cols (moved i j P0) (to_dict W c) ->
  exists hs, life_run W rows cols c T g fuel u0 hs /\
    forall m r S P, nth_error hs (m * length phases + r) = Some S -> nth_error phases r = Some P ->
      rolled_up rows cols (moved (i + Z.of_nat m * di) (j + Z.of_nat m * dj) P) S.
Proof.
  intros U I BA BN W rows cols fuel u0 c T g phases di dj i j P0 (Hne & Hnext & Hlast) HP0 Hr Hc Hfit Hg HT Hf Hl H01 H0.
  set (p := length phases). assert (Hp : (0 < p)%nat) by (unfold p; destruct phases; [congruence|cbn; lia]).
  set (orbit := fun k => moved (i + Z.of_nat (k / p) * di) (j + Z.of_nat (k / p) * dj) (nth (k mod p) phases [])).
  assert (Hnth : forall r, (r < p)%nat -> nth_error phases r = Some (nth r phases [])) by (intros r Hrp; apply nth_error_nth'; assumption).
  assert (H0th : nth 0 phases [] = P0) by (destruct phases; [discriminate|injection HP0 as ->; reflexivity]).
  destruct (C95_plane U I BA BN W rows cols fuel u0 c T g orbit Hr Hc Hg HT Hf Hl H01) as (hs & Hrun & Hk).
  - unfold orbit. rewrite Nat.div_0_l, Nat.mod_0_l by lia. rewrite H0th. cbn [Z.of_nat]. rewrite !Z.mul_0_l, !Z.add_0_r. assumption.
  - intros k. unfold orbit. pose proof (Nat.div_mod k p ltac:(lia)) as Ek. pose proof (Nat.mod_upper_bound k p ltac:(lia)) as Hm.
    destruct (Nat.eq_dec (S (k mod p)) p) as [E|E].
    + assert (Ed : (S k / p = S (k / p))%nat) by (symmetry; apply (Nat.div_unique _ _ _ 0); [lia|nia]).
      assert (Er : (S k mod p = 0)%nat) by (symmetry; apply (Nat.mod_unique _ _ (S (k / p))); [lia|nia]).
      rewrite Ed, Er, H0th. replace (moved (i + Z.of_nat (S (k / p)) * di) (j + Z.of_nat (S (k / p)) * dj) P0)
        with (moved (i + Z.of_nat (k / p) * di) (j + Z.of_nat (k / p) * dj) (moved di dj P0)) by (rewrite moved_moved; f_equal; nia).
      apply generation_moved. apply (Hlast P0 _ HP0). rewrite Hnth by (fold p; lia). f_equal. fold p. f_equal. lia.
    + assert (Ed : (S k / p = k / p)%nat) by (symmetry; apply (Nat.div_unique _ _ _ (S (k mod p))); lia).
      assert (Er : (S k mod p = S (k mod p))%nat) by (symmetry; apply (Nat.mod_unique _ _ (k / p)); lia).
      rewrite Ed, Er. apply generation_moved. apply (Hnext (k mod p)%nat); apply Hnth; lia.
  - intros k _. unfold orbit. pose proof (Nat.mod_upper_bound k p ltac:(lia)) as Hm.
    destruct (Hfit (nth (k mod p) phases [])) as (x0 & y0 & Hb); [apply nth_In; assumption|].
    exists (x0 + (i + Z.of_nat (k / p) * di)), (y0 + (j + Z.of_nat (k / p) * dj)). intros x y Hxy. rewrite lit_moved in Hxy. apply Hb in Hxy. lia.
  - exists hs. split; [assumption|]. intros m r S P ES EP. apply Hk in ES. unfold orbit in ES.
    assert (Hrp : (r < p)%nat) by (apply nth_error_Some; congruence).
    rewrite (Nat.add_comm (m * p)), Nat.div_add, Nat.mod_add in ES by lia. rewrite (Nat.div_small r), (Nat.mod_small r), Nat.add_0_l in ES by assumption.
    rewrite Hnth in EP by assumption. injection EP as <-. assumption.
Qed.
Print Assumptions C95_comes_back.

(** the demo's patterns, phase by phase (demos/game_of_life/game_of_life_demo.py:11-30: cells 1710.. are the glider, 1125.. the
    lightweight spaceship, 2415.. the blinker of a 60 x 60 grid) *)
Definition glider_phases : list pattern :=
  [[(0,1); (1,2); (2,0); (2,1); (2,2)];
   [(1,0); (1,2); (2,1); (2,2); (3,1)];
   [(1,2); (2,0); (2,2); (3,1); (3,2)];
   [(1,1); (2,2); (2,3); (3,1); (3,2)]].
Definition lwss_phases : list pattern :=
  [[(0,1); (0,4); (1,0); (2,0); (2,4); (3,0); (3,1); (3,2); (3,3)];
   [(1,0); (1,1); (2,-1); (2,0); (2,2); (2,3); (3,0); (3,1); (3,2); (3,3); (4,1); (4,2)];
   [(1,-1); (1,0); (1,1); (1,2); (2,-1); (2,3); (3,-1); (4,0); (4,3)];
   [(0,0); (0,1); (1,-1); (1,0); (1,1); (1,2); (2,-2); (2,-1); (2,1); (2,2); (3,-1); (3,0)]].
Definition blinker_phases : list pattern := [[(0,0); (0,1); (0,2)]; [(-1,1); (0,1); (1,1)]].
Definition block : pattern := [(0,0); (0,1); (1,0); (1,1)].

Lemma nth_error_combine {X Y} (l : list X) (l' : list Y) k a b : nth_error l k = Some a -> nth_error l' k = Some b -> nth_error (combine l l') k = Some (a, b).
Proof. revert l l'. induction k as [|k IH]; intros [|x l] [|y l'] E1 E2; try discriminate; cbn in *; [congruence|]. apply IH; assumption. Qed.

Lemma check_phases phases di dj : phases <> [] ->
  forallb (fun p => same_cells (next_pattern (fst p)) (snd p)) (combine phases (tl phases ++ [moved di dj (hd [] phases)])) = true -> comes_back phases di dj.
Proof.
  intros Hne E. split; [assumption|]. rewrite forallb_forall in E. split.
  - intros k P Q EP EQ. apply generation_check. apply (E (P, Q)). apply (nth_error_In _ k). destruct phases as [|P1 ps]; [discriminate|]. cbn [tl].
    cbn [nth_error] in EQ. assert (Hk : (k < length ps)%nat) by (apply nth_error_Some; congruence).
    assert (EQ' : nth_error (ps ++ [moved di dj (hd [] (P1 :: ps))]) k = Some Q) by (rewrite nth_error_app1; assumption).
    apply nth_error_combine; assumption.
  - intros P Q EP EQ. apply generation_check. apply (E (Q, moved di dj P)). destruct phases as [|P1 ps]; [discriminate|]. injection EP as ->. cbn [tl hd].
    apply (nth_error_In _ (length ps)). replace (length (P :: ps) - 1)%nat with (length ps) in EQ by (cbn [length]; lia).
    assert (EM : nth_error (ps ++ [moved di dj P]) (length ps) = Some (moved di dj P)) by (rewrite nth_error_app2, Nat.sub_diag by lia; reflexivity).
    apply nth_error_combine; assumption.
Qed.

(** the glider comes back after 4 timesteps one row down and one column right; the spaceship two columns to the left; the
    blinker after 2 timesteps in place; the block never changes *)
Theorem C95_patterns : comes_back glider_phases 1 1 /\ comes_back lwss_phases 0 (-2) /\ comes_back blinker_phases 0 0 /\ comes_back [block] 0 0.
Proof. splits; (apply check_phases; [discriminate|vm_compute; reflexivity]). Qed.
Print Assumptions C95_patterns.

Lemma phases_fit rows cols phases (corners : list (Z * Z)) h w : forallb (fun p => inside h w (moved (- fst (snd p)) (- snd (snd p)) (fst p))) (combine phases corners) = true ->
  length corners = length phases -> h + 2 <= rows -> w + 2 <= cols -> forall P, In P phases -> fits rows cols P.
Proof.
  intros E El Hr Hc P HP. apply In_nth_error in HP. destruct HP as (k & Ek). rewrite forallb_forall in E.
  assert (Hk : (k < length phases)%nat) by (apply nth_error_Some; congruence).
  destruct (nth_error corners k) as [[x y]|] eqn:Ec; [|apply nth_error_None in Ec; lia].
  assert (Hin : In (P, (x, y)) (combine phases corners)).
  { apply (nth_error_In _ k). apply nth_error_combine; assumption. }
  apply E in Hin. cbn [fst snd] in Hin. apply (inside_fits rows cols h w x y) in Hin; [|assumption|assumption]. rewrite moved_moved in Hin.
  replace (moved (- x + x) (- y + y) P) with P in Hin; [assumption|]. unfold moved. rewrite <- (map_id P) at 1. apply map_ext. intros [a b]. cbn [fst snd]. f_equal; lia.
Qed.

(** every torus of at least 5 x 5 cells is large enough for the glider and the blinker, 6 x 7 for the spaceship, 4 x 4 for the block *)
Theorem C95_room : forall rows cols,
  (5 <= rows -> 5 <= cols -> forall P, In P (glider_phases ++ blinker_phases) -> fits rows cols P) /\
  (6 <= rows -> 7 <= cols -> forall P, In P lwss_phases -> fits rows cols P) /\
  (4 <= rows -> 4 <= cols -> fits rows cols block).
Proof.
  intros rows cols. split; [|split].
  - intros Hr Hc P HP. apply in_app_or in HP. destruct HP as [HP|HP]; revert P HP.
    + apply (phases_fit rows cols _ [(0, 0); (1, 0); (1, 0); (1, 1)] 3 3); [vm_compute; reflexivity|reflexivity|lia|lia].
    + apply (phases_fit rows cols _ [(0, 0); (-1, 1)] 3 3); [vm_compute; reflexivity|reflexivity|lia|lia].
  - intros Hr Hc. apply (phases_fit rows cols _ [(0, 0); (1, -1); (1, -1); (0, -2)] 4 5); [vm_compute; reflexivity|reflexivity|lia|lia].
  - intros Hr Hc. apply (phases_fit rows cols [block] [(0, 0)] 2 2); [vm_compute; reflexivity|reflexivity|lia|lia|left; reflexivity].
Qed.
Print Assumptions C95_room.

(** the demo's run is the glider on the 60 x 60 torus: after 4m timesteps it has moved m rows down and m columns right, for
    every m, hence it is back where it started after 240 timesteps; stated for every torus *)
Theorem C95_glider : forall (U I BA BN : Type) (W : env Z Z Z BA BN) rows cols fuel (u0 : U) c T (g : @args Z Z Z U I) i j glider0,
  hd_error glider_phases = Some glider0 -> 5 <= rows -> 5 <= cols ->
  plain_life g -> 1 <= T -> (Z.to_nat T <= fuel)%nat ->
  Z.of_nat (length (to_dict W c)) = rows * cols -> grid01 (rows * cols) (to_dict W c) ->
  rolled_up rows cols (moved i j glider0) (to_dict W c) ->
  exists hs, life_run W rows cols c T g fuel u0 hs /\
    (forall m S, nth_error hs (m * 4) = Some S -> rolled_up rows cols (moved (i + Z.of_nat m) (j + Z.of_nat m) glider0) S) /\
    (forall S a b, rows = cols -> nth_error hs (Z.to_nat (4 * rows)) = Some S -> 0 <= a < rows -> 0 <= b < cols -> alive cols S (a, b) = alive cols (to_dict W c) (a, b)).
Proof.
  intros U I BA BN W rows cols fuel u0 c T g i j P0 HP0 Hr Hc Hg HT Hf Hl H01 H0.
  destruct (C95_comes_back U I BA BN W rows cols fuel u0 c T g glider_phases 1 1 i j P0 (proj1 C95_patterns) HP0 ltac:(lia) ltac:(lia)
    (fun P HP => proj1 (C95_room rows cols) Hr Hc P (in_or_app _ _ _ (or_introl HP))) Hg HT Hf Hl H01 H0) as (hs & Hrun & Hk).
  assert (Hm : forall m S, nth_error hs (m * 4) = Some S -> rolled_up rows cols (moved (i + Z.of_nat m) (j + Z.of_nat m) P0) S).
  { intros m S ES. replace (Z.of_nat m) with (Z.of_nat m * 1) by lia. apply (Hk m 0%nat S P0); [rewrite Nat.add_0_r; assumption|]. destruct glider_phases; [discriminate|]. exact HP0. }
  exists hs. split; [assumption|]. split; [assumption|]. intros S a b Erc ES Ha Hb. subst cols.
  replace (Z.to_nat (4 * rows)) with (Z.to_nat rows * 4)%nat in ES by lia. apply Hm in ES. rewrite Z2Nat.id in ES by lia.
  assert (E : alive rows S (a, b) = true <-> alive rows (to_dict W c) (a, b) = true).
  { rewrite (ES a b Ha Hb), (H0 a b Ha Hb). split; intros (x & y & E & -> & ->); rewrite lit_moved in E.
    - exists (x - rows), (y - rows). rewrite lit_moved. split; [rewrite <- E; f_equal; f_equal; lia|].
      replace (x - rows) with (x + -1 * rows) by lia. replace (y - rows) with (y + -1 * rows) by lia. rewrite !Z_mod_plus_full. auto.
    - exists (x + 1 * rows), (y + 1 * rows). rewrite lit_moved, !Z_mod_plus_full. split; [rewrite <- E; f_equal; f_equal; lia|auto]. }
  destruct (alive rows S (a, b)), (alive rows (to_dict W c) (a, b)); tauto || (symmetry; tauto) || (destruct E; auto).
Qed.
Print Assumptions C95_glider.

(** ** the demo itself: three patterns that do not meet within its 60 timesteps *)
Definition at_phase (phases : list pattern) (k : nat) (i j di dj : Z) : pattern :=
  let p := length phases in moved (i + Z.of_nat (k / p) * di) (j + Z.of_nat (k / p) * dj) (nth (k mod p) phases []).
Definition demo_pattern (k : nat) : pattern :=
  at_phase lwss_phases k 18 44 0 (-2) ++ at_phase glider_phases k 28 29 1 1 ++ at_phase blinker_phases k 40 15 0 0.
Definition demo_cells : list Z := [1125; 1128; 1184; 1244; 1248; 1304; 1305; 1306; 1307; 1710; 1771; 1829; 1830; 1831; 2415; 2416; 2417].
(** init_simple2d(60, 60) already sets cell 1830, which belongs to the glider *)
Definition demo_grid : list Z := map (fun v => if existsb (Z.eqb v) (1830 :: demo_cells) then 1 else 0) (zrange 0 3600).

Lemma demo_generation k : (k < 60)%nat -> generation (demo_pattern k) (demo_pattern (S k)).
Proof.
  intros Hk. apply generation_check. assert (E : forallb (fun k => same_cells (next_pattern (demo_pattern k)) (demo_pattern (S k))) (seq 0 60) = true) by (vm_compute; reflexivity).
  rewrite forallb_forall in E. apply E. apply in_seq. lia.
Qed.

Definition demo_dict : dict Z Z := combine (zrange 0 3600) demo_grid.
Lemma demo_01 : grid01 3600 demo_dict.
Proof.
  intros v Hv. assert (E : forallb (fun v => match dget demo_dict v with Some 0 => true | Some 1 => true | _ => false end) (zrange 0 3600) = true) by (vm_compute; reflexivity).
  rewrite forallb_forall in E. specialize (E v (proj2 (in_zrange _ _ _) Hv)). destruct (dget demo_dict v) as [[|[p|p|]|p]|]; try discriminate; auto.
Qed.
Lemma demo_starts : rolled_up 60 60 (demo_pattern 0) demo_dict.
Proof.
  assert (E : forallb (fun v => Bool.eqb (alive 60 demo_dict (v / 60, v mod 60)) (lit (demo_pattern 0) (v / 60, v mod 60))) (zrange 0 3600) = true) by (vm_compute; reflexivity).
  assert (Ein : forallb (fun c => (0 <=? fst c) && (fst c <? 60) && (0 <=? snd c) && (snd c <? 60)) (demo_pattern 0) = true) by (vm_compute; reflexivity).
  revert E Ein. generalize demo_dict as D, (demo_pattern 0) as P. intros D P E Ein. rewrite forallb_forall in E, Ein. intros a b Ha Hb.
  assert (Eab : alive 60 D (a, b) = lit P (a, b)).
  { specialize (E (a * 60 + b) (proj2 (in_zrange 0 3600 (a * 60 + b)) ltac:(lia))). rewrite Z.div_add_l, (Z.div_small b), Z.add_0_r, (Z.add_comm (a * 60)), Z_mod_plus_full, (Z.mod_small b) in E by lia. apply Bool.eqb_prop in E. exact E. }
  rewrite Eab. split; [intros El; exists a, b; rewrite !Z.mod_small by lia; auto|].
  intros (x & y & El & -> & ->). apply lit_In in El as Hin. apply Ein in Hin. cbn [fst snd] in Hin. rewrite !andb_true_iff, !Z.leb_le, !Z.ltb_lt in Hin.
  rewrite !Z.mod_small by lia. exact El.
Qed.
Lemma demo_fits k : (k < 60)%nat -> fits 60 60 (demo_pattern k).
Proof.
  intros Hk. assert (E : forallb (fun k => inside 28 58 (moved (-18) (-1) (demo_pattern k))) (seq 0 60) = true) by (vm_compute; reflexivity).
  revert E. generalize demo_pattern as P. intros P E.
  rewrite forallb_forall in E. specialize (E k (proj2 (in_seq 60 0 k) ltac:(lia))). apply (inside_fits 60 60 28 58 18 1) in E; [|lia|lia].
  rewrite moved_moved in E. replace (moved (-18 + 18) (-1 + 1) (P k)) with (P k) in E; [exact E|].
  unfold moved. rewrite <- (map_id (P k)) at 1. apply map_ext. intros [a b]. cbn [fst snd]. f_equal; lia.
Qed.
Lemma demo_size : Z.of_nat (length demo_dict) = 3600. Proof. vm_compute. reflexivity. Qed.
Lemma then_computed (P : nat -> pattern) n : (0 < n)%nat -> (forall k, (S k < n)%nat -> generation (P k) (P (S k))) ->
  exists Q, (forall k, (k < n)%nat -> Q k = P k) /\ forall k, generation (Q k) (Q (S k)).
Proof.
  intros Hn Hg. exists (fun k => if (k <? n)%nat then P k else Nat.iter (k - n) next_pattern (next_pattern (P (n - 1)%nat))). split.
  - intros k Hk. destruct (Nat.ltb_spec k n); [reflexivity|lia].
  - intros k. destruct (Nat.ltb_spec k n), (Nat.ltb_spec (S k) n); try lia.
    + apply Hg. assumption.
    + replace (S k - n)%nat with 0%nat by lia. replace (n - 1)%nat with k by lia. cbn [Nat.iter]. apply next_pattern_ok.
    + replace (S k - n)%nat with (S (k - n)) by lia. cbn [Nat.iter]. apply next_pattern_ok.
Qed.

Theorem C95_demo : forall (U I BA BN : Type) (W : env Z Z Z BA BN) fuel (u0 : U) c (g : @args Z Z Z U I),
  (60 <= fuel)%nat -> plain_life g -> to_dict W c = combine (zrange 0 3600) demo_grid ->
  exists hs, life_run W 60 60 c 60 g fuel u0 hs /\ forall k S, nth_error hs k = Some S -> rolled_up 60 60 (demo_pattern k) S.
Proof.
  intros U I BA BN W fuel u0 c g Hf Hg Ec. change (to_dict W c = demo_dict) in Ec.
  pose proof demo_01 as H01. pose proof demo_starts as H0. pose proof demo_fits as Hfit. pose proof demo_size as Hlen. pose proof demo_generation as Hgen.
  revert Ec H01 H0 Hfit Hlen Hgen. generalize demo_dict as D, demo_pattern as P. intros D P Ec H01 H0 Hfit Hlen Hgen. subst D.
  destruct (then_computed P 60 ltac:(lia) (fun k Hk => Hgen k ltac:(lia))) as (Q & EQ & Hg').
  destruct (C95_plane U I BA BN W 60 60 fuel u0 c 60 g Q ltac:(lia) ltac:(lia) Hg ltac:(lia) ltac:(lia) Hlen H01) as (hs & Hrun & Hk).
  - rewrite EQ by lia. exact H0.
  - exact Hg'.
  - intros k Hk. rewrite EQ by lia. apply Hfit. lia.
  - exists hs. split; [exact Hrun|]. intros k S ES. destruct Hrun as (o & net & uf & traj & _ & _ & Elen & _).
    assert (Hk60 : (k < 60)%nat) by (assert (k < length hs)%nat by (apply nth_error_Some; congruence); lia).
    rewrite <- EQ by exact Hk60. exact (Hk k S ES).
Qed.
Print Assumptions C95_demo.

(** ** two free rows are needed: with one the pattern meets itself around the torus *)
Theorem C95_two_rows_refuted : exists P Q S S' l u net traj,
  fits 5 7 P /\ ~ fits 4 7 P /\ rolled_up 4 7 P S /\ generation P Q /\
  cellular_automaton2d 4 7 1 "Moore" true = Ok net /\ to_dict W0 (CList l) = S /\ grid01 28 S /\
  evolve W0 2 0 net (Some (CList l)) (Some 2) None life_args = Ok (u, traj) /\
  option_map (activities W0) (nth_error traj 1) = Some (Ok (Some S')) /\ ~ rolled_up 4 7 Q S'.
Proof.
  pose (P := [(0,0); (0,1); (2,0)] : pattern).
  pose (l := [1;1;0;0;0;0;0; 0;0;0;0;0;0;0; 1;0;0;0;0;0;0; 0;0;0;0;0;0;0]).
  assert (E : exists net, cellular_automaton2d 4 7 1 "Moore" true = Ok net) by (eexists; vm_compute; reflexivity). destruct E as [net E].
  assert (E2 : exists p, match cellular_automaton2d 4 7 1 "Moore" true with Ok net => evolve W0 2 0 net (Some (CList l)) (Some 2) None life_args | Err e => Err e end = Ok p
     /\ exists S', option_map (activities W0) (nth_error (snd p) 1) = Some (Ok (Some S')) /\ alive 7 S' (3, 0) = true).
  { eexists. split; [vm_compute; reflexivity|]. eexists. split; vm_compute; reflexivity. }
  rewrite E in E2. destruct E2 as ([u traj] & Ev & S' & Es & Ha).
  assert (HP : forall x y, lit P (x, y) = true -> x = 0 /\ y = 0 \/ x = 0 /\ y = 1 \/ x = 2 /\ y = 0).
  { intros x y Hl. apply lit_In in Hl. cbn in Hl. destruct Hl as [Hl|[Hl|[Hl|[]]]]; inversion Hl; lia. }
  exists P, (next_pattern P), (to_dict W0 (CList l)), S', l, u, net, traj. split; [|split; [|split; [|split; [|split; [|split; [|split; [|split; [|split]]]]]]]].
  - exists 0, 0. intros x y Hl. apply HP in Hl. lia.
  - intros (x0 & y0 & Hb). pose proof (Hb 0 0 eq_refl). pose proof (Hb 2 0 eq_refl). lia.
  - intros a b Ha' Hb. assert (Ec : forallb (fun v => Bool.eqb (alive 7 (to_dict W0 (CList l)) (v / 7, v mod 7)) (lit P (v / 7, v mod 7))) (zrange 0 28) = true) by (vm_compute; reflexivity).
    rewrite forallb_forall in Ec. specialize (Ec (a * 7 + b) (proj2 (in_zrange 0 28 (a * 7 + b)) ltac:(lia))).
    rewrite Z.div_add_l, (Z.div_small b), Z.add_0_r, (Z.add_comm (a * 7)), Z_mod_plus_full, (Z.mod_small b) in Ec by lia. apply Bool.eqb_prop in Ec. rewrite Ec. split.
    + intros El. exists a, b. rewrite !Z.mod_small by lia. auto.
    + intros (x & y & El & -> & ->). apply HP in El as Hxy. rewrite !Z.mod_small by lia. assumption.
  - apply next_pattern_ok.
  - assumption.
  - reflexivity.
  - intros v Hv. apply in_zrange in Hv. vm_compute in Hv. repeat (destruct Hv as [<-|Hv]; [vm_compute; auto|]). contradiction.
  - assumption.
  - assumption.
  - intros Hr. destruct (proj1 (Hr 3 0 ltac:(lia) ltac:(lia)) Ha) as (x & y & El & E1 & E2).
    assert (Hq : forall c, lit (next_pattern P) c = true -> In c [(1,0); (1,1)]) by (intros c Hc; apply lit_In in Hc; vm_compute in Hc; vm_compute; tauto).
    apply Hq in El. cbn in El. destruct El as [El|[El|[]]]; inversion El; subst; vm_compute in E1; discriminate.
Qed.
Print Assumptions C95_two_rows_refuted.

(** a glider in the middle of a 6 x 9 torus, by running the model of the whole pipeline *)
Definition glider69 : list Z := [0;0;0;0;0;0;0;0;0; 0;0;0;0;1;0;0;0;0; 0;0;0;0;0;1;0;0;0; 0;0;0;1;1;1;0;0;0; 0;0;0;0;0;0;0;0;0; 0;0;0;0;0;0;0;0;0].
Example C95_nonvacuous : plain_life life_args /\ grid01 54 (to_dict W0 (CList glider69)) /\
  rolled_up 6 9 (moved 1 3 [(0,1); (1,2); (2,0); (2,1); (2,2)]) (to_dict W0 (CList glider69)).
Proof.
  split; [repeat split|]. split.
  - intros v Hv. apply in_zrange in Hv. vm_compute in Hv. repeat (destruct Hv as [<-|Hv]; [vm_compute; auto|]). contradiction.
  - set (P := moved 1 3 [(0,1); (1,2); (2,0); (2,1); (2,2)]). intros a b Ha Hb.
    assert (Ec : forallb (fun v => Bool.eqb (alive 9 (to_dict W0 (CList glider69)) (v / 9, v mod 9)) (lit P (v / 9, v mod 9))) (zrange 0 54) = true) by (vm_compute; reflexivity).
    rewrite forallb_forall in Ec. specialize (Ec (a * 9 + b) (proj2 (in_zrange 0 54 (a * 9 + b)) ltac:(lia))).
    rewrite Z.div_add_l, (Z.div_small b), Z.add_0_r, (Z.add_comm (a * 9)), Z_mod_plus_full, (Z.mod_small b) in Ec by lia. apply Bool.eqb_prop in Ec. rewrite Ec. split.
    + intros El. exists a, b. rewrite !Z.mod_small by lia. auto.
    + intros (x & y & El & -> & ->). assert (Hin : 0 <= x < 6 /\ 0 <= y < 9).
      { apply lit_In in El. cbn in El. repeat (destruct El as [El|El]; [inversion El; lia|]). contradiction. }
      rewrite !Z.mod_small by lia. assumption.
Qed.

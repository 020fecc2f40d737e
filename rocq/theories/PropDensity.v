(** C111: what the density classification demo computes, and that no rule number classifies every initial condition. *)
From Verif Require Import Py PyFacts ListFacts Network Topology Evolve EvolveSpec EvolveProofs EvolveStatic Rules RulesSpec RulesProofs CaSpec CaRun CaNets EcaSpec PropRules PropCa RevSpec PropReversible DensitySpec DensityProofs Density.
Open Scope string_scope.
Open Scope list_scope.
Open Scope Z_scope.

(** what binary_ca_rule returns on a neighbourhood: the numbers of the neighbourhoods count down *)
Definition table (N : Z) (l : list Z) : Z := Z.b2z (Z.testbit N (2 ^ Z.of_nat (length l) - 1 - number 2 l)).
Lemma bit_tab N l : bit (table N l).
Proof. unfold table, bit. destruct (Z.testbit _ _); auto. Qed.

Section Theorems.
  Context {U I BA BN : Type} (W : env Z Z Z BA BN).
  Hypothesis Hlab : forall i, e_lab W i = Z.of_nat i.

  Lemma dget_list l v : 0 <= v < Z.of_nat (length l) -> dget (to_dict W (CList l)) v = Some (cell_of l v).
  Proof.
    intros Hv. cbn [to_dict]. unfold enumerate, cell_of. 
    assert (G : forall l k v, Z.of_nat k <= v < Z.of_nat k + Z.of_nat (length l) -> dget (map (fun ia => (e_lab W (fst ia), snd ia)) (combine (seq k (length l)) l)) v = Some (nth (Z.to_nat (v - Z.of_nat k)) l 0)).
    { clear - Hlab. induction l as [|a l IH]; intros k v Hv; [cbn in Hv; lia|]. cbn [length seq combine map fst snd dget]. rewrite Hlab. destruct (eqd v (Z.of_nat k)) as [->|Hne]; [rewrite Z.sub_diag; reflexivity|].
      rewrite IH by (cbn [length] in Hv; lia). replace (Z.to_nat (v - Z.of_nat k)) with (S (Z.to_nat (v - Z.of_nat (S k)))) by lia. reflexivity. }
    rewrite (G l 0%nat v) by lia. repeat f_equal. lia.
  Qed.

  (** the run: every state is the global map of the numbered rule, iterated *)
  Theorem C111_run fuel (u0 : U) n r N init T : 3 <= n -> 0 <= r -> 2 * r + 1 <= n -> 0 <= N < 2 ^ (2 ^ (2 * r + 1)) ->
    Z.of_nat (length init) = n -> Forall bit init -> 1 <= T -> (Z.to_nat T <= fuel)%nat ->
    exists uf traj hs, density_demo (I := I) W fuel u0 n r N init T = Ok (uf, traj) /\ Z.of_nat (length hs) = T /\ Forall2 (fun s S => activities W s = Ok (Some S)) traj hs /\
      forall k S v, nth_error hs k = Some S -> 0 <= v < n ->
        dget S v = Some (ca_state (ring_nb n r) (fun _ _ l => table N l) k (cell_of init) v) /\ bit (ca_state (ring_nb n r) (fun _ _ l => table N l) k (cell_of init) v).
  Proof.
    intros Hn Hr H2r HN Hli Hbi HT Hfu. unfold density_demo. destruct (ring_lattice n r Hn Hr H2r) as (net & E & Hlat). rewrite E. cbn [rbind]. pose proof Hlat as (Hnd & Hnodes & Hcl & Hlen & Hnb & Hub).
    assert (Hst : static (density_args (I := I) N) (stateless (U := U) (binary_ca_rule N false))) by (repeat split).
    assert (Hcell : forall v, 0 <= v < n -> bit (cell_of init v)).
    { intros v Hv. unfold cell_of. rewrite Forall_forall in Hbi. apply Hbi. apply nth_In. lia. }
    destruct (ca_run W fuel u0 net (ring_nb n r) (CList init) T (density_args N) (binary_ca_rule N false) (fun _ _ l => table N l) bit (cell_of init) Hst Hnd HT Hfu) as (uf & traj & hs & Er & Hl & Hf & H0 & Hk & Hs).
    - cbn [to_dict]. unfold enumerate. rewrite map_length, combine_length, seq_length, Nat.min_id. lia.
    - exact Hcl.
    - intros v Hv. apply Hnb, Hnodes, Hv.
    - intros v Hv. apply dget_list. rewrite Hli. apply Hnodes, Hv.
    - intros v Hv. apply Hcell, Hnodes, Hv.
    - intros x Hx Hc Ha Hla. split; [|apply bit_tab]. assert (Hbits : is_bits (x_nacts x)) by exact Ha. pose proof (number_range 2 (x_nacts x) ltac:(lia) (proj1 (bits_states _) Hbits)) as Hr2. destruct (C30_nks N x Hbits) as [_ Eb]; [rewrite Hla, length_ring_nb, Z2Nat.id by lia; exact HN|]. rewrite Eb. f_equal. unfold digit, table.
      rewrite Z.testbit_spec' by lia. reflexivity.
    - assert (Hfull : forall k S v, nth_error hs k = Some S -> 0 <= v < n -> dget S v = Some (ca_state (ring_nb n r) (fun _ _ l => table N l) k (cell_of init) v)) by (intros k S v Ek Hv; apply (Hs k S Ek), Hnodes, Hv).
      exists uf, traj, hs. split; [exact Er|]. split; [exact Hl|]. split.
      + assert (Hne : forall S, In S hs -> S <> []) by (intros S HS; apply In_nth_error in HS; destruct HS as [k Ek]; intros ->; specialize (Hfull k [] 0 Ek ltac:(lia)); discriminate).
        clear - Hf Hne. induction Hf as [|s S traj hs Es Hf IH]; [constructor|]. constructor; [|apply IH; intros S' HS'; apply Hne; right; exact HS']. rewrite Es. destruct S; [exfalso; apply (Hne []); [left|]; reflexivity|reflexivity].
      + intros k S v Ek Hv. split; [apply Hfull; assumption|]. destruct k; [apply Hcell, Hv|apply bit_tab].
  Qed.

  (** all lists of [n] zeros and ones *)
  Fixpoint rows_of (n : nat) : list (list Z) := match n with O => [[]] | S n => map (cons 0) (rows_of n) ++ map (cons 1) (rows_of n) end.
  Lemma in_rows_of n l : In l (rows_of n) <-> length l = n /\ Forall bit l.
  Proof.
    revert l. induction n as [|n IH]; intros l; cbn [rows_of].
    - split; [intros [<-|[]]; auto|]. intros [Hl _]. destruct l; [left; reflexivity|discriminate].
    - rewrite in_app_iff, !in_map_iff. split.
      + intros [(y & <- & Hy)|(y & <- & Hy)]; apply IH in Hy; destruct Hy as [Hl Hf]; (split; [cbn [length]; congruence|constructor; [|exact Hf]]); [left|right]; reflexivity.
      + intros [Hl Hf]. destruct l as [|z x]; [discriminate|]. inversion Hf as [|? ? Hz Hf']; subst. injection Hl as Hl. destruct Hz as [-> | ->]; [left|right]; exists x; (split; [reflexivity|]); apply IH; auto.
  Qed.

  (** a rule that does not classify fails on some row of cells, at some cell *)
  Lemma not_classifies n r f T : 0 < n -> ~ classifies n r f T ->
    exists init v, Z.of_nat (length init) = n /\ Forall bit init /\ 0 <= v < n /\ ca_state (ring_nb n r) (fun _ _ l => f l) T (cell_of init) v <> majority n (cell_of init).
  Proof.
    intros Hn Hno. set (wrong := fun init v => negb (ca_state (ring_nb n r) (fun _ _ l => f l) T (cell_of init) v =? majority n (cell_of init))).
    destruct (existsb (fun init => existsb (wrong init) (zrange 0 n)) (rows_of (Z.to_nat n))) eqn:E.
    - apply existsb_exists in E. destruct E as (init & Hin & E). apply existsb_exists in E. destruct E as (v & Hv & E). apply in_rows_of in Hin. apply in_zrange in Hv. exists init, v. unfold wrong in E. apply negb_true_iff in E. apply Z.eqb_neq in E.
      split; [lia|]. split; [tauto|]. split; [lia|exact E].
    - exfalso. apply Hno. intros s Hs v Hv. set (init := row n s).
      assert (Hin : In init (rows_of (Z.to_nat n))) by (apply in_rows_of; unfold init, row; split; [rewrite map_length, length_zrange; f_equal; lia|apply Forall_forall; intros a Ha; apply in_map_iff in Ha; destruct Ha as (w & <- & Hw); apply in_zrange in Hw; apply Hs; lia]).
      assert (Hce : forall w, 0 <= w < n -> cell_of init w = s w) by (intros w Hw; apply cell_of_row; exact Hw).
      assert (Est : forall k w, 0 <= w < n -> ca_state (ring_nb n r) (fun _ _ l => f l) k (cell_of init) w = ca_state (ring_nb n r) (fun _ _ l => f l) k s w).
      { induction k as [|k IH]; intros w Hw; [apply Hce, Hw|]. change (f (map (ca_state (ring_nb n r) (fun _ _ l => f l) k (cell_of init)) (ring_nb n r w)) = f (map (ca_state (ring_nb n r) (fun _ _ l => f l) k s) (ring_nb n r w))). f_equal. apply map_ext_in. intros y Hy. apply IH. apply in_map_iff in Hy. destruct Hy as (d & <- & _). apply Z.mod_pos_bound. lia. }
      assert (Ew : wrong init v = false).
      { destruct (wrong init v) eqn:Ew; [|reflexivity]. exfalso. assert (existsb (fun init => existsb (wrong init) (zrange 0 n)) (rows_of (Z.to_nat n)) = true); [|congruence]. apply existsb_exists. exists init. split; [exact Hin|]. apply existsb_exists. exists v. split; [apply in_zrange; lia|exact Ew]. }
      unfold wrong in Ew. apply negb_false_iff in Ew. apply Z.eqb_eq in Ew. rewrite Est in Ew by exact Hv. rewrite Ew. unfold majority. rewrite (count_ext n (cell_of init) s) by exact Hce. reflexivity.
  Qed.

  (** for every rule number, every odd number of cells that is large compared with the radius, and every number of timesteps there are initial conditions for which some cell of the last state is not in the initial majority state *)
  Theorem C111_impossible fuel (u0 : U) m r N T : 1 <= m -> 0 <= r -> 2 * r * (2 * r + 3) <= m -> 0 <= N < 2 ^ (2 ^ (2 * r + 1)) -> 1 <= T -> (Z.to_nat T <= fuel)%nat ->
    exists init, Z.of_nat (length init) = 2 * m + 1 /\ Forall bit init /\
      exists uf traj s S v a, density_demo (I := I) W fuel u0 (2 * m + 1) r N init T = Ok (uf, traj) /\ nth_error traj (Z.to_nat T - 1) = Some s /\ activities W s = Ok (Some S) /\
        0 <= v < 2 * m + 1 /\ dget S v = Some a /\ a <> majority (2 * m + 1) (cell_of init).
  Proof.
    intros Hm Hr Hbig HN HT Hfu. set (n := 2 * m + 1).
    destruct (not_classifies n r (table N) (Z.to_nat T - 1) ltac:(lia) (no_classifier n m r (table N) (Z.to_nat T - 1) eq_refl Hm Hr Hbig (fun l _ _ => bit_tab N l))) as (init & v & Hl & Hb & Hv & Hw).
    exists init. split; [exact Hl|]. split; [exact Hb|].
    destruct (C111_run fuel u0 n r N init T ltac:(lia) Hr ltac:(unfold n; nia) HN Hl Hb HT Hfu) as (uf & traj & hs & E & Hlh & Hf & Hs).
    destruct (nth_error hs (Z.to_nat T - 1)) as [S|] eqn:ES; [|apply nth_error_None in ES; lia].
    assert (Hlt : length traj = length hs) by (clear - Hf; induction Hf; cbn; congruence).
    destruct (nth_error traj (Z.to_nat T - 1)) as [s|] eqn:Es; [|apply nth_error_None in Es; lia].
    exists uf, traj, s, S, v, (ca_state (ring_nb n r) (fun _ _ l => table N l) (Z.to_nat T - 1) (cell_of init) v). split; [exact E|]. split; [exact Es|]. split; [exact (Forall2_at _ _ _ _ _ _ Hf Es ES)|]. split; [exact Hv|]. split; [apply (Hs _ _ _ ES Hv)|exact Hw].
  Qed.

  (** a rule number with bit 0 set and the last bit clear, such as that of the demo, keeps the two uniform states *)
  Theorem C111_uniform n r N k a : 0 < n -> 0 <= r -> (a = 0 -> Z.testbit N (2 ^ (2 * r + 1) - 1) = false) -> (a = 1 -> Z.testbit N 0 = true) -> bit a ->
    forall s, uniform n a s -> uniform n a (ca_state (ring_nb n r) (fun _ _ l => table N l) k s).
  Proof.
    intros Hn Hr H0 H1 Ha s Hs. induction k as [|k IH]; [exact Hs|]. intros v Hv. change (table N (map (ca_state (ring_nb n r) (fun _ _ l => table N l) k s) (ring_nb n r v)) = a).
    rewrite (map_ext_in _ (fun _ => a)) by (intros w Hw; apply IH; apply in_map_iff in Hw; destruct Hw as (d & <- & _); apply Z.mod_pos_bound; lia).
    assert (E : map (fun _ => a) (ring_nb n r v) = repeat a (Z.to_nat (2 * r + 1))) by (rewrite <- (length_ring_nb n r v Hr); clear; induction (ring_nb n r v) as [|x l IH]; [reflexivity|]; cbn [map length repeat]; f_equal; exact IH). rewrite E.
    unfold table. rewrite repeat_length, Z2Nat.id by lia. destruct Ha as [-> | ->].
    - assert (En : forall k, number 2 (repeat 0 k) = 0) by (clear; induction k as [|k IH]; [reflexivity|]; cbn [repeat number]; rewrite IH; reflexivity). rewrite En, Z.sub_0_r, H0 by reflexivity. reflexivity.
    - assert (En : forall k, number 2 (repeat 1 k) = 2 ^ Z.of_nat k - 1).
      { clear. induction k as [|k IH]; [reflexivity|]. cbn [repeat number]. rewrite IH, repeat_length, Nat2Z.inj_succ, Z.pow_succ_r by lia. lia. }
      rewrite En, Z2Nat.id by lia. rewrite Z.sub_diag, H1 by reflexivity. reflexivity.
  Qed.
End Theorems.
Print Assumptions C111_run.
Print Assumptions C111_impossible.
Print Assumptions C111_uniform.

(** ca_density_classification_demo.py:12: the rule number of the demo, for radius 3 *)
Definition demo_rule : Z := 6667021275756174439087127638698866559.
Definition list_next (N n r : Z) (s : list Z) : list Z := row n (fun v => table N (map (cell_of s) (ring_nb n r v))).
Lemma list_next_state N n r s k : 0 < n -> Z.of_nat (length s) = n -> Nat.iter k (list_next N n r) s = row n (ca_state (ring_nb n r) (fun _ _ l => table N l) k (cell_of s)).
Proof.
  intros Hn Hl. induction k as [|k IH].
  - cbn [Nat.iter nat_rect ca_state]. unfold row, cell_of. rewrite <- Hl. clear. induction s as [|a s IH] using rev_ind; [reflexivity|]. rewrite app_length. cbn [length]. rewrite (zrange_snoc 0 (Z.of_nat (length s + 1))) by lia. rewrite map_app. replace (Z.of_nat (length s + 1) - 1) with (Z.of_nat (length s)) by lia. f_equal.
    + rewrite IH at 1. apply map_ext_in. intros v Hv. apply in_zrange in Hv. symmetry. apply app_nth1. lia.
    + cbn [map]. f_equal. rewrite Nat2Z.id. rewrite app_nth2, Nat.sub_diag by lia. reflexivity.
  - change (Nat.iter (S k) (list_next N n r) s) with (list_next N n r (Nat.iter k (list_next N n r) s)). rewrite IH. unfold list_next, row. apply map_ext_in. intros v Hv. apply in_zrange in Hv.
    change (table N (map (cell_of (row n (ca_state (ring_nb n r) (fun _ _ l => table N l) k (cell_of s)))) (ring_nb n r v)) = table N (map (ca_state (ring_nb n r) (fun _ _ l => table N l) k (cell_of s)) (ring_nb n r v))). f_equal.
    apply map_ext_in. intros w Hw. apply cell_of_row. apply in_map_iff in Hw. destruct Hw as (d & <- & _). apply Z.mod_pos_bound. lia.
Qed.

(** the alternating row: 75 of its 149 cells are 1 *)
Definition alternating : list Z := map (fun i => (i + 1) mod 2) (zrange 0 149).
(** on its own 149 cells, for its own 149 timesteps, the rule of the demo sends the alternating row with its majority of ones to the row of zeros: it is classified, and wrongly *)
Theorem C111_demo_refuted {U I BA BN} (W : env Z Z Z BA BN) fuel (u0 : U) : (forall i, e_lab W i = Z.of_nat i) -> (149 <= fuel)%nat ->
  exists init, length init = 149%nat /\ Forall bit init /\ majority 149 (cell_of init) = 1 /\
    exists uf traj s S, density_demo (I := I) W fuel u0 149 3 demo_rule init 149 = Ok (uf, traj) /\ nth_error traj 148 = Some s /\ activities W s = Ok (Some S) /\ forall v, 0 <= v < 149 -> dget S v = Some 0.
Proof.
  intros Hlab Hfu. exists alternating. split; [vm_compute; reflexivity|].
  assert (Hb : Forall bit alternating) by (apply Forall_forall; intros a Ha; apply in_map_iff in Ha; destruct Ha as (i & <- & _); pose proof (Z.mod_pos_bound (i + 1) 2 ltac:(lia)); unfold bit; lia).
  split; [exact Hb|]. split; [vm_compute; reflexivity|].
  destruct (C111_run (I := I) W Hlab fuel u0 149 3 demo_rule alternating 149 ltac:(lia) ltac:(lia) ltac:(lia) ltac:(split; [discriminate|vm_compute; reflexivity]) ltac:(vm_compute; reflexivity) Hb ltac:(lia) ltac:(lia)) as (uf & traj & hs & E & Hlh & Hf & Hs).
  destruct (nth_error hs 148) as [S|] eqn:ES; [|apply nth_error_None in ES; lia].
  assert (Hlt : length traj = length hs) by (clear - Hf; induction Hf; cbn; congruence).
  destruct (nth_error traj 148) as [s|] eqn:Es; [|apply nth_error_None in Es; lia].
  exists uf, traj, s, S. split; [exact E|]. split; [exact Es|]. split; [exact (Forall2_at _ _ _ _ _ _ Hf Es ES)|].
  intros v Hv. destruct (Hs 148%nat S v ES Hv) as [-> _]. f_equal.
  assert (Ez : Nat.iter 148 (list_next demo_rule 149 3) alternating = repeat 0 149) by (vm_compute; reflexivity).
  rewrite list_next_state in Ez by (try lia; vm_compute; reflexivity). rewrite <- (cell_of_row 149 (ca_state (ring_nb 149 3) (fun _ _ l => table demo_rule l) 148 (cell_of alternating)) v Hv), Ez. unfold cell_of. apply nth_repeat.
Qed.
Print Assumptions C111_demo_refuted.

(** the sizes of the demo are covered: radius 3 and 149 cells *)
Example C111_sizes : 149 = 2 * 74 + 1 /\ 1 <= 74 /\ 0 <= 3 /\ 2 * 3 * (2 * 3 + 3) <= 74 /\ 2 * 3 + 1 <= 149 /\ 0 <= demo_rule < 2 ^ (2 ^ (2 * 3 + 1)).
Proof. repeat split; vm_compute; congruence. Qed.
(** the rule of the demo keeps both uniform states *)
Example C111_demo_uniform : Z.testbit demo_rule (2 ^ (2 * 3 + 1) - 1) = false /\ Z.testbit demo_rule 0 = true.
Proof. split; vm_compute; reflexivity. Qed.
(** and it does classify some rows: a block of 70 ones on 149 cells dies out *)
Example C111_demo_right : let init := repeat 1 70 ++ repeat 0 79 in majority 149 (cell_of init) = 0 /\ Nat.iter 148 (list_next demo_rule 149 3) init = repeat 0 149.
Proof. vm_compute. split; reflexivity. Qed.

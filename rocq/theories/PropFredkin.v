(** Property theorems for the Fredkin demos (C84). *)
From Verif Require Import Py PyFacts ListFacts Network Topology TopologySpec Evolve EvolveSpec EvolveProofs EvolveStatic CaSpec CaRun CaNets SandpileSpec Fredkin FredkinProofs PropEvolve PropCa.
From Coq Require Import Znumtheory.
Open Scope string_scope.
Open Scope list_scope.
Open Scope Z_scope.

(** [O] lists the offsets of the neighbours other than the cell itself *)
Definition others (nbh : string) (r : Z) (O : list (Z * Z)) : Prop :=
  NoDup O /\ forall dx dy, In (dx, dy) O <-> offset_of nbh r dx dy /\ (dx, dy) <> (0, 0).

Section Theorems.
  Context {U I BA BN : Type}.
  Notation env := (env Z Z Z BA BN).
  Notation args := (@args Z Z Z U I).

  (** C84: p^k steps later every cell holds the sum, modulo the prime p, of the cells p^k times its neighbours' offsets away *)
  Theorem C84_replication : forall (W : env) fuel (u0 : U) rows cols r nbh O p c T (g : args),
    prime p -> 0 <= r -> 2 * r + 1 <= rows -> 2 * r + 1 <= cols -> 9 <= rows * cols -> nbh = "Moore" \/ nbh = "von Neumann" -> others nbh r O ->
    static g (stateless (fredkin_rule p)) -> 1 <= T -> (Z.to_nat T <= fuel)%nat -> config W (rows * cols) (fun _ => True) c ->
    exists net hs, cellular_automaton2d rows cols r nbh true = Ok net /\ runs W fuel u0 net c T g hs /\
      forall k t S S' a b, nth_error hs t = Some S -> nth_error hs (t + Z.to_nat (p ^ Z.of_nat k)) = Some S' -> 0 <= a < rows -> 0 <= b < cols ->
        dget S' (a * cols + b) =
          Some (zsum (map (fun d => cell_value S ((a + p ^ Z.of_nat k * fst d) mod rows * cols + (b + p ^ Z.of_nat k * snd d) mod cols)) O) mod p).
  Proof.
    intros W fuel u0 rows cols r nbh O p c T g Hp Hr Hrows Hcols Hn Hnbh [HO HOin] Hst HT Hf [Hl Hc].
    destruct (torus_lattice rows cols r nbh ltac:(lia) ltac:(lia) Hn Hr Hnbh) as (net & f & E & Hlat & Hndf & Hin). exists net.
    pose proof Hlat as (Hnd & Hnodes & Hcl & Hlen & Hnb & Hub).
    destruct (config_of W net c (fun _ => True)) as [s Hs]; [intros E0; apply (in_nil (a := 0)); rewrite <- E0; apply Hnodes; lia|intros v Hv; apply Hc, Hnodes; assumption|].
    destruct (lattice_run W fuel u0 net (rows * cols) f c T g (fredkin_rule p) (fun _ => True) s Hlat Hst HT Hf Hl) as (hs & Hrun & Hz & Hk).
    - intros v Hv. apply Hs, Hnodes. assumption.
    - trivial.
    - intros x y _ E1 E2. unfold fredkin_rule. rewrite E1, E2. reflexivity.
    - intros v Hv x _ _ _. eexists. split; [reflexivity|trivial].
    - exists hs. split; [assumption|]. split; [assumption|]. intros k t S S' a b Et Et' Ha Hb.
      pose proof (TopologyProofs.cell_bound rows cols a b Ha Hb) as Hv. unfold TopologyProofs.cell in Hv. rewrite (Hk _ _ Et' _ Hv). f_equal.
      rewrite (ca_state_add f).
      pose proof (fred_replicates rows cols r nbh f O Hr Hrows Hcols Hndf Hub Hin HO HOin p k (ca_state f (fun_of (I := I) (V := Z) (fredkin_rule p)) t s) a b Hp) as Hrep.
      unfold lift at 1 in Hrep. rewrite !Z.mod_small in Hrep by lia.
      etransitivity; [exact Hrep|]. f_equal. unfold spread, scale. rewrite map_map. f_equal. apply map_ext. intros d. unfold lift, cell_value. cbn [fst snd].
      rewrite (Hk _ _ Et); [reflexivity|]. apply (TopologyProofs.cell_bound rows cols); apply Z.mod_pos_bound; lia.
  Qed.
  (** C84: a pattern that fits into a p^k by p^k window is, p^k steps later, replaced by one exact copy per neighbour other than the cell itself, and nothing else *)
  Theorem C84_copies : forall (W : env) fuel (u0 : U) rows cols r nbh O p k c T (g : args),
    prime p -> 0 <= r -> (2 * r + 1) * p ^ Z.of_nat k <= rows -> (2 * r + 1) * p ^ Z.of_nat k <= cols -> 9 <= rows * cols -> nbh = "Moore" \/ nbh = "von Neumann" -> others nbh r O ->
    static g (stateless (fredkin_rule p)) -> 1 <= T -> (Z.to_nat T <= fuel)%nat -> config W (rows * cols) (fun _ => True) c ->
    exists net hs, cellular_automaton2d rows cols r nbh true = Ok net /\ runs W fuel u0 net c T g hs /\
      forall t S S' a0 b0, let q := p ^ Z.of_nat k in nth_error hs t = Some S -> nth_error hs (t + Z.to_nat q) = Some S' ->
        (forall a b, 0 <= a < rows -> 0 <= b < cols -> cell_value S (a * cols + b) <> 0 ->
           exists i j, 0 <= i < q /\ 0 <= j < q /\ a = (a0 + i) mod rows /\ b = (b0 + j) mod cols) ->
        (forall d i j, In d O -> 0 <= i < q -> 0 <= j < q ->
           dget S' ((a0 + i + q * fst d) mod rows * cols + (b0 + j + q * snd d) mod cols) = Some (cell_value S ((a0 + i) mod rows * cols + (b0 + j) mod cols) mod p)) /\
        (forall a b, 0 <= a < rows -> 0 <= b < cols ->
           (forall d i j, In d O -> 0 <= i < q -> 0 <= j < q -> ~ (a = (a0 + i + q * fst d) mod rows /\ b = (b0 + j + q * snd d) mod cols)) ->
           dget S' (a * cols + b) = Some 0).
  Proof.
    intros W fuel u0 rows cols r nbh O p k c T g Hp Hr Hrows Hcols Hn Hnbh HO Hst HT Hf Hc. pose proof (prime_ge_2 _ Hp) as Hp2.
    assert (Hq : 1 <= p ^ Z.of_nat k) by (pose proof (Z.pow_pos_nonneg p (Z.of_nat k)); lia).
    destruct (C84_replication W fuel u0 rows cols r nbh O p c T g Hp Hr ltac:(nia) ltac:(nia) Hn Hnbh HO Hst HT Hf Hc) as (net & hs & E & Hrun & Hrep).
    destruct HO as [HO HOin]. exists net, hs. split; [assumption|]. split; [assumption|]. intros t S S' a0 b0 q Et Et' Hbox. specialize (Hrep k t S S'). fold q in Hrep, Hq, Hrows, Hcols.
    assert (Hrp : 0 < rows) by nia. assert (Hcp : 0 < cols) by nia.
    assert (Hneg : forall dx dy, In (dx, dy) O -> In (- dx, - dy) O).
    { intros dx dy Hd. apply HOin in Hd. destruct Hd as [Hd Hne]. apply HOin. split; [|intros E0; injection E0 as E1 E2; apply Hne; f_equal; lia].
      revert Hd. unfold offset_of, moore_offset, von_neumann_offset. destruct (String.eqb nbh "Moore"); lia. }
    assert (Hsm : forall dx dy, In (dx, dy) O -> Z.abs dx <= r /\ Z.abs dy <= r) by (intros dx dy Hd; apply HOin in Hd; apply (offset_small r nbh); tauto).
    assert (Hdec : forall v, (cell_value S v <> 0 -> False) -> cell_value S v = 0) by (intros v Hv; destruct (Z.eq_dec (cell_value S v) 0); [assumption|exfalso; auto]).
    split.
    - intros [dx dy] i j Hd Hi Hj. cbn [fst snd]. rewrite (Hrep _ _ Et Et') by (apply Z.mod_pos_bound; assumption). do 2 f_equal.
      rewrite (zsum_single _ O (- dx, - dy) HO (Hneg _ _ Hd)).
      + cbn [fst snd]. rewrite !Zplus_mod_idemp_l. replace (a0 + i + q * dx + q * - dx) with (a0 + i) by lia. replace (b0 + j + q * dy + q * - dy) with (b0 + j) by lia. reflexivity.
      + intros [ex ey] He Hne. cbn [fst snd]. rewrite !Zplus_mod_idemp_l. apply Hdec. intros Hv.
        apply Hbox in Hv; [|apply Z.mod_pos_bound; assumption..]. destruct Hv as (i' & j' & Hi' & Hj' & E1 & E2).
        destruct (Hsm _ _ Hd), (Hsm _ _ He). apply Hne.
        destruct (window rows q r a0 i i' dx (- ex)) as [Ex _]; [lia|assumption|assumption|assumption|assumption|lia|rewrite <- E1; f_equal; lia|].
        destruct (window cols q r b0 j j' dy (- ey)) as [Ey _]; [lia|assumption|assumption|assumption|assumption|lia|rewrite <- E2; f_equal; lia|].
        f_equal; lia.
    - intros a b Ha Hb Hno. rewrite (Hrep _ _ Et Et' Ha Hb), zsum_none; [reflexivity|]. intros [ex ey] He. cbn [fst snd]. apply Hdec. intros Hv.
      apply Hbox in Hv; [|apply Z.mod_pos_bound; assumption..]. destruct Hv as (i & j & Hi & Hj & E1 & E2).
      apply (Hno (- ex, - ey) i j (Hneg _ _ He) Hi Hj). cbn [fst snd].
      rewrite <- (Zplus_mod_idemp_l (a0 + i)), <- E1, Zplus_mod_idemp_l. rewrite <- (Zplus_mod_idemp_l (b0 + j)), <- E2, Zplus_mod_idemp_l.
      split; symmetry; [replace (a + q * ex + q * - ex) with a by lia|replace (b + q * ey + q * - ey) with b by lia]; apply Z.mod_small; assumption.
  Qed.
End Theorems.
Print Assumptions C84_replication.
Print Assumptions C84_copies.

Definition g_fred (p : Z) : args0 := base (Some (stateless (fredkin_rule p))) None None [] SYNCHRONOUS false.
Definition torus55 : network Z Z := Eval vm_compute in ok_net (cellular_automaton2d 5 5 1 "von Neumann" true).
Definition dot55 : list Z := map (fun v => if v =? 12 then 1 else 0) (zrange 0 25).
Definition cross : list (Z * Z) := [(-1, 0); (0, -1); (0, 1); (1, 0)].
Definition box8 : list (Z * Z) := [(-1, -1); (-1, 0); (-1, 1); (0, -1); (0, 1); (1, -1); (1, 0); (1, 1)].
Lemma others_cross : others "von Neumann" 1 cross.
Proof.
  split; [repeat constructor; cbn; intuition congruence|]. intros dx dy. change (offset_of "von Neumann" 1 dx dy) with (von_neumann_offset 1 dx dy). unfold cross, von_neumann_offset. cbn [In]. split.
  - intros Hd. repeat (destruct Hd as [Hd|Hd]; [injection Hd as <- <-; split; [lia|congruence]|]). destruct Hd.
  - intros [Hd Hne]. assert (dx <> 0 \/ dy <> 0) by (destruct (Z.eq_dec dx 0), (Z.eq_dec dy 0); subst; auto; congruence).
    assert (E : dx = -1 /\ dy = 0 \/ dx = 0 /\ dy = -1 \/ dx = 0 /\ dy = 1 \/ dx = 1 /\ dy = 0) by lia. destruct E as [[-> ->]|[[-> ->]|[[-> ->]|[-> ->]]]]; auto.
Qed.
Lemma others_box8 : others "Moore" 1 box8.
Proof.
  split; [repeat constructor; cbn; intuition congruence|]. intros dx dy. change (offset_of "Moore" 1 dx dy) with (moore_offset 1 dx dy). unfold box8, moore_offset. cbn [In]. split.
  - intros Hd. repeat (destruct Hd as [Hd|Hd]; [injection Hd as <- <-; split; [lia|congruence]|]). destruct Hd.
  - intros [Hd Hne]. assert (Ex : dx = -1 \/ dx = 0 \/ dx = 1) by lia. assert (Ey : dy = -1 \/ dy = 0 \/ dy = 1) by lia.
    destruct Ex as [->|[->| ->]], Ey as [->|[->| ->]]; tauto.
Qed.
Lemma dget_enumerate (l : list Z) : forall k v, Z.of_nat k <= v < Z.of_nat (k + length l) ->
  exists a, dget (map (fun iv => (Z.of_nat (fst iv), snd iv)) (combine (seq k (length l)) l)) v = Some a.
Proof.
  induction l as [|x l IH]; intros k v Hv; cbn [length] in Hv; [lia|]. cbn [length seq combine map fst snd dget]. destruct (eqd v (Z.of_nat k)) as [E|E]; [eauto|].
  apply IH. lia.
Qed.
Lemma config_list m (l : list Z) : Z.of_nat (length l) = m -> config W0 m (fun _ => True) (CList l).
Proof.
  intros El. split.
  - unfold to_dict, enumerate. rewrite map_length, combine_length, seq_length. lia.
  - intros v Hv. destruct (dget_enumerate l 0 v ltac:(lia)) as [a Ea]. exists a. split; [exact Ea|trivial].
Qed.

(** the prime matters: modulo 4 the picture after four steps is not the sum of the shifted copies *)
Theorem C84_not_prime_refuted : exists (W : env Z Z Z unit unit) fuel (u0 : Z) net c T (g : args0) hs S S' a b,
  static g (stateless (fredkin_rule 4)) /\ config W 25 (fun _ => True) c /\ cellular_automaton2d 5 5 1 "von Neumann" true = Ok net /\ runs W fuel u0 net c T g hs /\
  nth_error hs 0 = Some S /\ nth_error hs 4 = Some S' /\ 0 <= a < 5 /\ 0 <= b < 5 /\
  dget S' (a * 5 + b) <> Some (zsum (map (fun d => cell_value S ((a + 4 * fst d) mod 5 * 5 + (b + 4 * snd d) mod 5)) cross) mod 4).
Proof.
  pose (h1 := states_of (evolve W0 5 0 torus55 (Some (CList dot55)) (Some 5) None (g_fred 4))). vm_compute in h1.
  eexists W0, 5%nat, 0, torus55, (CList dot55), 5, (g_fred 4), h1, _, _, 0, 0.
  split; [repeat split|]. split; [apply config_list; reflexivity|].
  split; [vm_compute; reflexivity|].
  split. { eexists. eexists. split; [vm_compute; reflexivity|]. split; [reflexivity|]. repeat (constructor; [vm_compute; reflexivity|]). constructor. }
  split; [reflexivity|]. split; [reflexivity|]. split; [lia|]. split; [lia|]. vm_compute. discriminate.
Qed.
Print Assumptions C84_not_prime_refuted.

(** non-vacuity: a pattern of two cells on a 6 by 6 torus fits a 2 by 2 window; both demo primes *)
Definition pair66 : list Z := map (fun v => if (v =? 14) || (v =? 21) then 1 else 0) (zrange 0 36).
Example C84_nonvacuous :
  prime 2 /\ prime 11 /\ others "von Neumann" 1 cross /\ others "Moore" 1 box8 /\ static (g_fred 2) (stateless (fredkin_rule 2)) /\ static (g_fred 11) (stateless (fredkin_rule 11)) /\
  config W0 36 (fun _ => True) (CList pair66) /\ (2 * 1 + 1) * 2 ^ Z.of_nat 1 <= 6 /\
  (forall a b, 0 <= a < 6 -> 0 <= b < 6 -> cell_value (to_dict W0 (CList pair66)) (a * 6 + b) <> 0 ->
     exists i j, 0 <= i < 2 /\ 0 <= j < 2 /\ a = (2 + i) mod 6 /\ b = (2 + j) mod 6) /\
  cell_value (to_dict W0 (CList pair66)) (2 * 6 + 2) = 1.
Proof.
  split; [apply prime_2|]. split.
  { apply prime_intro; [lia|]. intros n Hn. apply Zgcd_1_rel_prime. assert (E : n = 1 \/ n = 2 \/ n = 3 \/ n = 4 \/ n = 5 \/ n = 6 \/ n = 7 \/ n = 8 \/ n = 9 \/ n = 10) by lia.
    repeat (destruct E as [->|E]; [reflexivity|]). subst n. reflexivity. }
  split; [apply others_cross|]. split; [apply others_box8|]. split; [repeat split|]. split; [repeat split|]. split; [apply config_list; reflexivity|].
  split; [cbn; lia|]. split; [|vm_compute; reflexivity]. intros a b Ha Hb.
  assert (Ea : a = 0 \/ a = 1 \/ a = 2 \/ a = 3 \/ a = 4 \/ a = 5) by lia. assert (Eb : b = 0 \/ b = 1 \/ b = 2 \/ b = 3 \/ b = 4 \/ b = 5) by lia.
  repeat (destruct Ea as [->|Ea]; [|]); try subst a; repeat (destruct Eb as [->|Eb]; [|]); try subst b;
    first [ intros Hne; exfalso; apply Hne; vm_compute; reflexivity
          | intros _; first [exists 0, 0; repeat split; lia | exists 1, 1; repeat split; lia] ].
Qed.

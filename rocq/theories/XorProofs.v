(** * The XOR gate on any rolled-up grid, for all streams of bits *)
From Verif Require Import Py PyFacts ListFacts Network Topology TopologySpec TopologyProofs TopologyProofs2 Evolve EvolveSpec EvolveProofs EvolveStatic CaSpec CaRun CaNets Rules HopfieldProofs FredkinProofs SandpileProofs PropWire DiodeSpec DiodeProofs XorSpec.
Open Scope string_scope.
Open Scope list_scope.
Open Scope Z_scope.

(** ** the gate alone remembers two pairs of bits *)
Fixpoint feed (a b : bool) (j : nat) (g : list Z) : list Z :=
  match j with O => g | S j => gate_change (fun _ => a) (fun _ => b) (Z.of_nat j) (feed a b j g) end.
Definition rest : list Z := map (fun _ => 3) gate.
Definition memory (a2 b2 a1 b1 : bool) : list Z := feed a1 b1 6 (feed a2 b2 6 rest).
Definition bits : list bool := [false; true].
Definition all_bits (P : bool -> bool) : bool := forallb P bits.
Lemma all_bits_spec P : all_bits P = true -> forall b, P b = true.
Proof. unfold all_bits, bits. cbn. intros H b. apply andb_true_iff in H. destruct H as [H1 H2]. apply andb_true_iff in H2. destruct b; tauto. Qed.

Lemma remembers_check : all_bits (fun a2 => all_bits (fun b2 => all_bits (fun a1 => all_bits (fun b1 => all_bits (fun a0 => all_bits (fun b0 => eqb (feed a0 b0 6 (memory a2 b2 a1 b1)) (memory a1 b1 a0 b0))))))) = true.
Proof. vm_compute. reflexivity. Qed.
Lemma remembers a2 b2 a1 b1 a0 b0 : feed a0 b0 6 (memory a2 b2 a1 b1) = memory a1 b1 a0 b0.
Proof.
  pose proof (all_bits_spec _ (all_bits_spec _ (all_bits_spec _ (all_bits_spec _ (all_bits_spec _ (all_bits_spec _ remembers_check a2) b2) a1) b1) a0) b0) as H. apply (proj1 (eqb_true _ _)) in H. exact H.
Qed.

Definition out_index : nat := 13.
Lemma output_index : nth_error gate out_index = Some output.
Proof. reflexivity. Qed.
Definition out_of (a1 b1 : bool) (j : nat) : Z := if xorb a1 b1 then if (j =? 4)%nat then 1 else if (j =? 5)%nat then 2 else 3 else 3.
Lemma answers_check : all_bits (fun a2 => all_bits (fun b2 => all_bits (fun a1 => all_bits (fun b1 => all_bits (fun a0 => all_bits (fun b0 =>
  forallb (fun j => nth out_index (feed a0 b0 j (memory a2 b2 a1 b1)) 0 =? out_of a1 b1 j) (seq 0 6))))))) = true.
Proof. vm_compute. reflexivity. Qed.
Lemma answers a2 b2 a1 b1 a0 b0 j : (j < 6)%nat -> nth out_index (feed a0 b0 j (memory a2 b2 a1 b1)) 0 = out_of a1 b1 j.
Proof.
  intros Hj. pose proof (all_bits_spec _ (all_bits_spec _ (all_bits_spec _ (all_bits_spec _ (all_bits_spec _ (all_bits_spec _ answers_check a2) b2) a1) b1) a0) b0) as H.
  rewrite forallb_forall in H. apply Z.eqb_eq, H, in_seq. lia.
Qed.

Lemma pulse_phase x k n j : 0 <= j < 6 -> k = 6 * n + j -> pulse x k = pulse (fun _ => x n) j.
Proof.
  intros Hj ->. unfold pulse. assert (E1 : (6 * n + j) / 6 = n) by (symmetry; apply (Z.div_unique _ _ _ j); lia). assert (E2 : (6 * n + j) mod 6 = j) by (symmetry; apply (Z.mod_unique _ _ n); lia).
  rewrite E1, E2, (Z.mod_small j) by lia. reflexivity.
Qed.
Lemma seen_ext x y x' y' k k' g d : pulse x k = pulse x' k' -> pulse y k = pulse y' k' -> seen x y k g d = seen x' y' k' g d.
Proof. intros E1 E2. unfold seen. rewrite E1, E2. reflexivity. Qed.
Lemma change_ext x y x' y' k k' g : pulse x k = pulse x' k' -> pulse y k = pulse y' k' -> gate_change x y k g = gate_change x' y' k' g.
Proof.
  intros E1 E2. unfold gate_change. apply map_ext. intros c. f_equal. f_equal. apply map_ext. intros e. rewrite (seen_ext x y x' y' k k' g _ E1 E2). reflexivity.
Qed.

Lemma gate_feed x y from n j : from mod 6 = 0 -> (j <= 6)%nat ->
  gate_alone x y from (6 * n + j) = feed (x (from / 6 + Z.of_nat n)) (y (from / 6 + Z.of_nat n)) j (gate_alone x y from (6 * n)).
Proof.
  intros Hf. assert (Ef : from = 6 * (from / 6)) by (pose proof (Z.div_mod from 6 ltac:(lia)); lia). induction j as [|j IH]; intros Hj; [rewrite Nat.add_0_r; reflexivity|].
  rewrite Nat.add_succ_r. cbn [gate_alone feed]. rewrite IH by lia. apply change_ext; apply pulse_phase; lia.
Qed.

Lemma gate_memory x y n : gate_alone x y (-12) (12 + 6 * n) = memory (x (Z.of_nat n - 2)) (y (Z.of_nat n - 2)) (x (Z.of_nat n - 1)) (y (Z.of_nat n - 1)).
Proof.
  induction n as [|n IH].
  - replace (12 + 6 * 0)%nat with (6 * 1 + 6)%nat by lia. rewrite gate_feed by (reflexivity || lia). replace (6 * 1)%nat with (6 * 0 + 6)%nat by lia. rewrite gate_feed by (reflexivity || lia). change (gate_alone x y (-12) (6 * 0)) with rest. change (-12 / 6 + Z.of_nat 1) with (-1). change (-12 / 6 + Z.of_nat 0) with (-2). change (Z.of_nat 0 - 2) with (-2). change (Z.of_nat 0 - 1) with (-1). unfold memory. exact eq_refl.
  - replace (12 + 6 * S n)%nat with (6 * (2 + n) + 6)%nat by lia. rewrite gate_feed by (reflexivity || lia). replace (6 * (2 + n))%nat with (12 + 6 * n)%nat by lia. rewrite IH.
    replace (-12 / 6 + Z.of_nat (2 + n)) with (Z.of_nat n) by (change (-12 / 6) with (-2); lia). rewrite remembers. replace (Z.of_nat (S n) - 2) with (Z.of_nat n - 1) by lia. replace (Z.of_nat (S n) - 1) with (Z.of_nat n) by lia. reflexivity.
Qed.

Lemma gate_output x y k : nth out_index (gate_alone x y (-12) (12 + k)) 0 = pulse (fun n => xorb (x n) (y n)) (Z.of_nat k - 10).
Proof.
  pose proof (Nat.div_mod k 6 ltac:(lia)) as D. pose proof (Nat.mod_upper_bound k 6 ltac:(lia)) as B. set (n := (k / 6)%nat) in *. set (j := (k mod 6)%nat) in *. clearbody n j. subst k.
  replace (12 + (6 * n + j))%nat with (6 * (2 + n) + j)%nat by lia. rewrite gate_feed by (reflexivity || lia). replace (6 * (2 + n))%nat with (12 + 6 * n)%nat by lia. rewrite gate_memory, answers by assumption.
  unfold out_of. destruct (Nat.leb_spec 4 j) as [H|H].
  - rewrite (pulse_phase _ _ (Z.of_nat n - 1) (Z.of_nat j - 4)) by lia. unfold pulse. destruct (xorb _ _); [|reflexivity]. rewrite (Z.mod_small (Z.of_nat j - 4)) by lia.
    assert (Hj : j = 4%nat \/ j = 5%nat) by lia. destruct Hj as [-> | ->]; reflexivity.
  - rewrite (pulse_phase _ _ (Z.of_nat n - 2) (Z.of_nat j + 2)) by lia. unfold pulse. rewrite (Z.mod_small (Z.of_nat j + 2)) by lia.
    assert (Hj : j = 0%nat \/ j = 1%nat \/ j = 2%nat \/ j = 3%nat) by lia. destruct Hj as [->|[->|[-> | ->]]]; cbn; destruct (xorb _ _), (xorb _ _); reflexivity.
Qed.

Lemma gate_rest : memory false false false false = rest.
Proof. vm_compute. reflexivity. Qed.

(** ** the gate on a board *)
Definition has_gate (rows cols a p : Z) (s : Z -> Z) : Prop :=
  forall c e, In c gate -> In e around9 -> let d := (fst c + fst e, snd c + snd e) in
    s (near rows cols a p (fst d) (snd d)) <> 0 <-> d = upper_in \/ d = lower_in \/ In d gate.

Lemma length_change x y k g : length g = length gate -> length (gate_change x y k g) = length gate.
Proof. intros H. unfold gate_change. rewrite map_length, combine_length. lia. Qed.
Lemma length_alone x y from k : length (gate_alone x y from k) = length gate.
Proof. destruct k as [|k]; [apply map_length|]. revert from. induction k as [|k IH]; intros from; cbn [gate_alone]; apply length_change; [apply map_length|apply IH]. Qed.

Lemma in_combine_map {X Y} (h : X * Y -> Y) (l : list X) : forall (g : list Y) c b, In (c, b) (combine l (map h (combine l g))) -> exists a, In (c, a) (combine l g) /\ b = h (c, a).
Proof.
  induction l as [|x l IH]; intros g c b; [contradiction|]. destruct g as [|a g]; [contradiction|]. cbn [combine map In]. intros [E|Hin].
  - injection E as -> <-. eauto.
  - apply IH in Hin. destruct Hin as (a' & Hin & ->). eauto.
Qed.

Section Gate.
  Variables (rows cols a p : Z) (f : Z -> list Z) (s : Z -> Z).
  Hypotheses (Hrows : 3 <= rows) (Hcols : 3 <= cols).
  Hypothesis Hnd : forall v, 0 <= v < rows * cols -> NoDup (f v).
  Hypothesis Hub : forall v w, 0 <= v < rows * cols -> In w (f v) -> 0 <= w < rows * cols.
  Hypothesis Hin : forall a b c d, 0 <= a < rows -> 0 <= b < cols -> 0 <= c < rows -> 0 <= d < cols ->
    (In (c * cols + d) (f (a * cols + b)) <-> torus_step rows cols (offset_of "Moore" 1) a b c d).
  Notation near d := (near rows cols a p (fst d) (snd d)).
  Notation st k := (ca_state f (fun _ => wire_next) k s).
  Hypothesis Hgate : has_gate rows cols a p s.
  Variables (x y : Z -> bool).
  Variable K : nat.
  Hypothesis Hx : forall k, (k < K)%nat -> st k (near upper_in) = pulse x (Z.of_nat k).
  Hypothesis Hy : forall k, (k < K)%nat -> st k (near lower_in) = pulse y (Z.of_nat k).
  Definition shows (k : nat) (g : list Z) : Prop := forall c b, In (c, b) (combine gate g) -> st k (near c) = b.

  Lemma seen_right k g c e : (k < K)%nat -> length g = length gate -> shows k g -> In c gate -> In e around9 -> st k (near (fst c + fst e, snd c + snd e)) = seen x y (Z.of_nat k) g (fst c + fst e, snd c + snd e).
  Proof.
    intros Hk Hl Hs Hc He. pose proof (Hgate c e Hc He) as Hne. cbv zeta in Hne. set (d := (fst c + fst e, snd c + snd e)) in *. unfold seen.
    destruct (eqb d upper_in) eqn:E1; [apply (proj1 (eqb_true _ _)) in E1; rewrite E1; apply Hx; exact Hk|]. destruct (eqb d lower_in) eqn:E2; [apply (proj1 (eqb_true _ _)) in E2; rewrite E2; apply Hy; exact Hk|].
    destruct (find _ _) as [[c' b]|] eqn:Ef.
    - apply find_some in Ef. destruct Ef as [Hin' Ed]. cbn [fst] in Ed. apply (proj1 (eqb_true _ _)) in Ed. subst c'. cbn [snd]. apply Hs. assumption.
    - apply empty_stays. destruct (Z.eq_dec (s (near d)) 0) as [|Hn]; [assumption|]. exfalso. apply Hne in Hn. destruct Hn as [Hn|[Hn|Hn]]; [rewrite Hn, eqb_refl in E1; discriminate|rewrite Hn, eqb_refl in E2; discriminate|].
      assert (Hex : exists b, In (d, b) (combine gate g)).
      { destruct (In_nth_error _ _ Hn) as [i Ei]. destruct (nth_error g i) as [b|] eqn:Eb.
        - exists b. clear - Ei Eb. revert g i Ei Eb. induction gate as [|c0 l IH]; intros g i Ei Eb; [destruct i; discriminate|]. destruct g as [|b0 g]; [destruct i; discriminate|]. destruct i as [|i]; cbn in *; [left; congruence|right; eauto].
        - exfalso. apply nth_error_None in Eb. assert (Hlt : (i < length gate)%nat) by (apply nth_error_Some; congruence). lia. }
      destruct Hex as [b Hb]. pose proof (find_none _ _ Ef _ Hb) as Hno. cbn [fst] in Hno. rewrite eqb_refl in Hno. discriminate.
  Qed.

  Lemma heads_sum (q : Z -> Z) l : Z.of_nat (count (map q l) 1) = zsum (map (fun v => if q v =? 1 then 1 else 0) l).
  Proof. rewrite count_filter. induction l as [|v l IH]; [reflexivity|]. cbn [filter map]. rewrite zsum_cons, <- IH. destruct (q v =? 1); cbn [length]; lia. Qed.

  Lemma gate_step k g : (k < K)%nat -> length g = length gate -> shows k g -> shows (S k) (gate_change x y (Z.of_nat k) g).
  Proof.
    intros Hk Hl Hs c b Hc. unfold gate_change in Hc. apply in_combine_map in Hc. destruct Hc as (v & Hv & ->). cbn [fst snd].
    assert (Hcg : In c gate) by (eapply in_combine_l; exact Hv). rewrite ca_state_S. unfold ca_next. rewrite (Hs c v Hv).
    assert (Hnz : v <> 0).
    { rewrite <- (Hs c v Hv). intros E. apply (empty_stays f s k) in E. destruct (Hgate c (0, 0) Hcg ltac:(cbn; tauto)) as [_ Hg]. cbv zeta in Hg. cbn [fst snd] in Hg. rewrite !Z.add_0_r in Hg. apply Hg; [right; right; destruct c; exact Hcg|exact E]. }
    assert (Hsum : Z.of_nat (count (map (st k) (f (near c))) 1) = zsum (map (fun e => if seen x y (Z.of_nat k) g (fst c + fst e, snd c + snd e) =? 1 then 1 else 0) around9)).
    { rewrite heads_sum. rewrite (zsum_perm _ _ (Permutation_map _ (near_nbrs rows cols a p f Hrows Hcols Hnd Hub Hin (fst c) (snd c)))), map_map.
      transitivity (zsum (map (fun e => if st k (near (fst c + fst e, snd c + snd e)) =? 1 then 1 else 0) around9)).
      - unfold eight, around9. cbn [map fst snd]. rewrite !zsum_cons. cbn [zsum fold_right]. lia.
      - f_equal. apply map_ext_in. intros e He. rewrite (seen_right k g c e Hk Hl Hs Hcg He). reflexivity. }
    rewrite <- Hsum. unfold wire_next, wire_change. destruct (Z.eqb_spec v 0); [contradiction|]. destruct (v =? 1); [reflexivity|]. destruct (v =? 2); [reflexivity|].
    destruct (count _ _) as [|[|[|n']]]; try reflexivity. destruct (Z.eqb_spec (Z.of_nat (S (S (S n')))) 1); [lia|]. destruct (Z.eqb_spec (Z.of_nat (S (S (S n')))) 2); [lia|]. reflexivity.
  Qed.

  Lemma gate_runs : shows 0 (gate_alone x y (-12) 12) -> forall k, (k <= K)%nat -> shows k (gate_alone x y (-12) (12 + k)).
  Proof.
    intros H0. induction k as [|k IH]; intros Hk; [exact H0|]. rewrite Nat.add_succ_r. cbn [gate_alone]. replace (-12 + Z.of_nat (12 + k)) with (Z.of_nat k) by lia. apply gate_step; [lia|apply length_alone|apply IH; lia].
  Qed.

  Lemma gate_xor : shows 0 (gate_alone x y (-12) 12) -> forall k, (k <= K)%nat -> st k (near output) = pulse (fun n => xorb (x n) (y n)) (Z.of_nat k - 10).
  Proof.
    intros H0 k Hk. rewrite <- gate_output. apply (gate_runs H0 k Hk). pose proof (length_alone x y (-12) (12 + k)) as Hl. set (g := gate_alone x y (-12) (12 + k)) in *.
    assert (Hc : nth_error (combine gate g) out_index = Some (output, nth out_index g 0)).
    { clear - Hl. do 24 (destruct g as [|? g]; [discriminate Hl|]). reflexivity. }
    eapply nth_error_In. exact Hc.
  Qed.
End Gate.

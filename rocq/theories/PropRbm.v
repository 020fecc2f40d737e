(** C110: the restricted Boltzmann machine demo performs alternating sampling from the conditional distributions of a Boltzmann distribution, which that sampling leaves unchanged. *)
From Verif Require Import Py PyFacts ListFacts Network Topology Evolve EvolveSpec Rbm RbmSpec RbmMath BipNet RbmProofs.
From Coq Require Import Reals Lra Permutation.
Open Scope string_scope.
Open Scope list_scope.
Open Scope Z_scope.

(** the run: the two sets in any order, and a generator giving any numbers *)
Theorem C110_run {I BA BN} (E : env label R activity BA BN) (choice : nat -> Z) (binomial : nat -> R -> Z) visible_nodes hidden_nodes vpos hpos weights v_bias h_bias fuel T :
  Permutation visible_nodes (map (fun j => Vis (Z.of_nat j)) (seq 0 (length v_bias))) ->
  Permutation hidden_nodes (map (fun i => Hid (Z.of_nat i)) (seq 0 (length h_bias))) ->
  v_bias <> [] -> h_bias <> [] -> Forall (fun l => l <> []) v_bias -> Forall (fun l => l <> []) h_bias ->
  length weights = length h_bias -> Forall (fun row => length row = length v_bias) weights ->
  (forall j, (j < length v_bias)%nat -> nth_error visible_nodes (vpos j) = Some (Vis (Z.of_nat j))) ->
  (forall i, (i < length h_bias)%nat -> nth_error hidden_nodes (hpos i) = Some (Hid (Z.of_nat i))) ->
  1 <= T -> (Z.to_nat T <= fuel)%nat ->
  let b := map (hd 0%R) v_bias in let c := map (hd 0%R) h_bias in
  let v0 := map (fun j => choice (vpos j)) (seq 0 (length v_bias)) in
  exists calls traj hs, rbm_demo (I := I) choice binomial visible_nodes hidden_nodes E fuel weights v_bias h_bias T = Ok (calls, traj) /\ calls = tosses b c (Z.to_nat T) /\
    Z.of_nat (length hs) = T /\ Forall2 (fun s S => activities E s = Ok (Some S)) traj hs /\
    forall k S, nth_error hs k = Some S ->
      let (v, h) := machine weights b c binomial vpos hpos v0 k in
      length v = length v_bias /\ length h = length h_bias /\
      (forall j, (j < length v_bias)%nat -> dget S (Vis (Z.of_nat j)) = Some (nth j v 0, nth j b 0%R)) /\
      (forall i, (i < length h_bias)%nat -> dget S (Hid (Z.of_nat i)) = Some (nth i h 0, nth i c 0%R)) /\
      visible_row (Z.of_nat (length v_bias)) S = Ok v.
Proof.
  intros Hv Hh Hvne Hhne Hvb Hhb HW Hrows Hvpos Hhpos HT Hfuel b c v0.
  destruct (rbm_run (I := I) E choice binomial visible_nodes hidden_nodes vpos hpos weights v_bias h_bias Hv Hh Hvne Hhne Hvb Hhb HW Hrows Hvpos Hhpos fuel T HT Hfuel) as (uf & traj & hs & Er & Hl & Hf & Hu & Hs).
  exists uf, traj, hs. split; [exact Er|]. split; [rewrite Hu; f_equal; lia|]. split; [exact Hl|].
  pose proof (vn_in visible_nodes v_bias Hv) as Vin. pose proof (hn_in hidden_nodes h_bias Hh) as Hin. split.
  - assert (Hne : Forall (fun S => S <> []) hs).
    { apply Forall_forall. intros S HS. apply In_nth_error in HS. destruct HS as [k Ek]. destruct (Hs k S Ek) as (_ & _ & Hg). intros ->. specialize (Hg (Vis (Z.of_nat 0))). discriminate Hg. left. apply Vin. exists 0%nat. split; [destruct v_bias; [congruence|cbn; lia]|reflexivity]. }
    clear - Hf Hne. induction Hf as [|s S traj hs Hs Hf IH]; [constructor|]. inversion Hne as [|? ? HS Hne']; subst. constructor; [|apply IH; assumption]. rewrite Hs. destruct S; [congruence|reflexivity].
  - intros k S Ek. destruct (Hs k S Ek) as (Nd & Kk & Hg). pose proof (machine_lengths choice binomial vpos hpos weights v_bias h_bias k) as [L1 L2]. fold b c v0 in L1, L2, Hg. destruct (machine weights b c binomial vpos hpos v0 k) as [v h]. cbn [fst snd] in L1, L2.
    split; [exact L1|]. split; [exact L2|].
    assert (G1 : forall j, (j < length v_bias)%nat -> dget S (Vis (Z.of_nat j)) = Some (nth j v 0, nth j b 0%R)) by (intros j Hj; rewrite Hg by (left; apply Vin; eauto); cbn [value fst snd]; rewrite Nat2Z.id; reflexivity).
    split; [exact G1|]. split; [intros i Hi; rewrite Hg by (right; apply Hin; eauto); cbn [value fst snd]; rewrite Nat2Z.id; reflexivity|].
    unfold visible_row. rewrite Nat2Z.id. destruct (visible_row_ok (length v_bias) S Nd) with (row0 := repeat 0 (length v_bias)) as (row & Erow & Hlr & Hn).
    + intros z Hz. apply Kk in Hz. destruct Hz as [Hz|Hz]; [apply Vin in Hz; destruct Hz as (j & Hj & Ez); injection Ez as ->; lia|apply Hin in Hz; destruct Hz as (j & _ & Ez); discriminate].
    + apply repeat_length.
    + rewrite Erow. f_equal. apply (nth_ext _ _ 0 0); [congruence|]. intros j Hj. rewrite Hn by congruence. rewrite G1 by congruence. reflexivity.
Qed.
Print Assumptions C110_run.

(** the numbers the demo passes to the generator are those conditional probabilities *)
Theorem C110_conditional W b c : length W = length c -> Forall (fun row => length row = length b) W ->
  (forall v i, (i < length c)%nat -> hidden_on W b c v i = sigmoid (nth i c 0 + dot (nth i W []) v))%R /\
  (forall h j, (j < length b)%nat -> length h = length c -> visible_on W b c h j = sigmoid (nth j b 0 + total (map (fun i => nth j (nth i W []) 0 * IZR (nth i h 0%Z)) (seq 0 (length c)))))%R /\
  (forall x, 0 < sigmoid x < 1)%R.
Proof.
  intros HW Hr. split; [intros v i Hi; apply hidden_on_eq; assumption|]. split.
  - intros h j Hj Hh. rewrite (visible_on_eq W b c HW Hr h j Hj Hh). unfold sigmoid. rewrite column_seq by congruence. rewrite Hh. reflexivity.
  - intros x. unfold sigmoid. pose proof (exp_pos (- x)) as He. split; [apply Rdiv_lt_0_compat; lra|]. apply (Rmult_lt_reg_r (1 + exp (- x))); [lra|]. unfold Rdiv. rewrite Rmult_assoc, Rinv_l by lra. lra.
Qed.
Print Assumptions C110_conditional.

(** sampling one layer given the other leaves the Boltzmann distribution unchanged *)
Theorem C110_stationary W b c : length W = length c -> Forall (fun row => length row = length b) W ->
  (forall v h, 0 < prob W b c v h)%R /\ total (map (fun v => total (map (prob W b c v) (bits (length c)))) (bits (length b))) = 1%R /\
  (forall v, total (map (hidden_kernel W b c v) (bits (length c))) = 1%R) /\
  (forall h, length h = length c -> total (map (visible_kernel W b c h) (bits (length b))) = 1%R) /\
  (forall v h', In h' (bits (length c)) -> 0 < hidden_kernel W b c v h' /\ total (map (fun h => prob W b c v h * hidden_kernel W b c v h') (bits (length c))) = prob W b c v h')%R /\
  (forall h v', length h = length c -> In v' (bits (length b)) -> 0 < visible_kernel W b c h v' /\ total (map (fun v => prob W b c v h * visible_kernel W b c h v') (bits (length b))) = prob W b c v' h)%R.
Proof.
  intros HW Hr. pose proof (partition_pos W b c) as HZ.
  assert (TH : forall v, (0 < total (map (boltzmann W b c v) (bits (length c))))%R) by (intros v; apply total_pos; [apply bits_nonempty|apply boltzmann_pos]).
  assert (TV : forall h, (0 < total (map (fun v => boltzmann W b c v h) (bits (length b))))%R) by (intros h; apply total_pos; [apply bits_nonempty|intros v; apply boltzmann_pos]).
  split; [intros v h; apply Rdiv_lt_0_compat; [apply boltzmann_pos|assumption]|]. split; [|split; [|split; [|split]]].
  - unfold prob. rewrite (total_ext _ (fun v => total (map (boltzmann W b c v) (bits (length c))) / partition W b c)%R) by (intros v _; apply total_div). rewrite total_div. unfold partition at 1. fold (partition W b c). field. lra.
  - intros v. apply (Rmult_eq_reg_l (total (map (boltzmann W b c v) (bits (length c))))); [|apply Rgt_not_eq, TH]. rewrite Rmult_1_r, <- total_scale. apply total_ext. intros h Hh. rewrite Rmult_comm. apply hidden_kernel_eq; assumption.
  - intros h Hh. apply (Rmult_eq_reg_l (total (map (fun v => boltzmann W b c v h) (bits (length b))))); [|apply Rgt_not_eq, TV]. rewrite Rmult_1_r, <- total_scale. apply total_ext. intros v Hv. rewrite Rmult_comm. apply visible_kernel_eq; assumption.
  - intros v h' Hh. pose proof (hidden_kernel_eq W b c HW v h' Hh) as K. pose proof (TH v) as T. pose proof (boltzmann_pos W b c v h') as P. split.
    + apply (Rmult_lt_reg_r (total (map (boltzmann W b c v) (bits (length c))))); [assumption|]. rewrite K, Rmult_0_l. assumption.
    + rewrite (total_ext _ (fun h => hidden_kernel W b c v h' / partition W b c * boltzmann W b c v h)%R) by (intros h _; unfold prob; field; lra). rewrite total_scale. unfold prob. rewrite <- K. field. lra.
  - intros h v' Hh Hv. pose proof (visible_kernel_eq W b c HW Hr h v' Hh Hv) as K. pose proof (TV h) as T. pose proof (boltzmann_pos W b c v' h) as P. split.
    + apply (Rmult_lt_reg_r (total (map (fun v => boltzmann W b c v h) (bits (length b))))); [assumption|]. rewrite K, Rmult_0_l. assumption.
    + rewrite (total_ext _ (fun v => visible_kernel W b c h v' / partition W b c * boltzmann W b c v h)%R) by (intros v _; unfold prob; field; lra). rewrite (total_scale (fun v => boltzmann W b c v h)). unfold prob. rewrite <- K. field. lra.
Qed.
Print Assumptions C110_stationary.

(** if the generator gives zeros and ones, every state is one of the [2^nv * 2^nh] states of the distribution *)
Theorem C110_binary W b c coin vpos hpos v0 k : (forall n p, coin n p = 0 \/ coin n p = 1) -> In v0 (bits (length b)) ->
  In (fst (machine W b c coin vpos hpos v0 k)) (bits (length b)) /\ In (snd (machine W b c coin vpos hpos v0 k)) (bits (length c)).
Proof.
  intros Hc H0. assert (G : forall n f (p : nat -> R), In (map (fun i => coin (f i) (p i)) (seq 0 n)) (bits n)).
  { intros n f p. apply in_bits. split; [rewrite map_length; apply seq_length|]. apply Forall_forall. intros z Hz. apply in_map_iff in Hz. destruct Hz as (i & <- & _). apply Hc. }
  induction k as [|k [IH1 IH2]]; cbn [machine].
  - split; [exact H0|]. cbn [snd]. apply in_bits. split; [apply repeat_length|]. apply Forall_forall. intros z Hz. apply repeat_spec in Hz. auto.
  - destruct (machine W b c coin vpos hpos v0 k) as [v h]. cbn [fst snd] in IH1, IH2. destruct (Nat.odd (S k)); cbn [fst snd]; (split; [|]); try assumption; [apply (G (length c) (fun i => (tosses b c (S k) + hpos i)%nat))|apply (G (length b) (fun i => (tosses b c (S k) + vpos i)%nat))].
Qed.
Print Assumptions C110_binary.

(** ** Examples *)
(** two visible units visited in the order 1, 0, and one hidden unit *)
Example C110_setting : let vn := [Vis 1; Vis 0] in let hn := [Hid 0] in let v_bias := [[1]; [2]]%R in let h_bias := [[3]]%R in let weights := [[4; 5]]%R in
  let vpos := fun j => match j with O => 1%nat | _ => 0%nat end in let hpos := fun i : nat => i in
  Permutation vn (map (fun j => Vis (Z.of_nat j)) (seq 0 (length v_bias))) /\ Permutation hn (map (fun i => Hid (Z.of_nat i)) (seq 0 (length h_bias))) /\
  length weights = length h_bias /\ Forall (fun row => length row = length v_bias) weights /\
  (forall j, (j < length v_bias)%nat -> nth_error vn (vpos j) = Some (Vis (Z.of_nat j))) /\ (forall i, (i < length h_bias)%nat -> nth_error hn (hpos i) = Some (Hid (Z.of_nat i))).
Proof.
  cbn. repeat split.
  - apply perm_swap.
  - apply Permutation_refl.
  - repeat constructor.
  - intros [|[|j]] Hj; try reflexivity. lia.
  - intros [|i] Hi; [reflexivity|lia].
Qed.
(** its hidden unit is on with probability sigma(3 + 4 + 5) when both visible units are, and the first step tosses one coin, the second two *)
Example C110_hidden : hidden_on [[4; 5]]%R [1; 2]%R [3]%R [1; 1] 0 = sigmoid 12.
Proof.
  rewrite (proj1 (C110_conditional [[4; 5]]%R [1; 2]%R [3]%R eq_refl ltac:(repeat constructor))) by (cbn; lia). f_equal. cbn. unfold dot. cbn. lra.
Qed.
Example C110_tosses : map (tosses [1; 2]%R [3]%R) [1; 2; 3; 4; 5]%nat = [0; 1; 3; 4; 6]%nat.
Proof. reflexivity. Qed.
(** a generator that ignores its probability and alternates 1, 0, 1, ...: the states of the first five timesteps *)
Example C110_states : map (machine [[4; 5]]%R [1; 2]%R [3]%R (fun k _ => if Nat.even k then 1 else 0) (fun j => match j with O => 1%nat | _ => 0%nat end) (fun i => i) [0; 1]) [0; 1; 2; 3; 4]%nat =
  [([0; 1], [0]); ([0; 1], [1]); ([1; 0], [1]); ([1; 0], [0]); ([0; 1], [0])].
Proof. reflexivity. Qed.

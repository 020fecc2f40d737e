(** * The snowflake on the plane: it grows, its symmetries, its tips and its boundary *)
From Verif Require Import Py PyFacts ListFacts FredkinProofs FlakeSpec.
Open Scope list_scope.
Open Scope Z_scope.

Notation bz b := (if b : bool then 1 else 0).

Lemma around s q r : alive_around s q r = bz (s (q + 1) r) + bz (s q (r + 1)) + bz (s (q - 1) (r + 1)) + bz (s (q - 1) r) + bz (s q (r - 1)) + bz (s (q + 1) (r - 1)).
Proof.
  unfold alive_around, six. cbn [map fst snd zsum fold_right]. rewrite !Z.add_0_r. replace (q + -1) with (q - 1) by lia. replace (r + -1) with (r - 1) by lia. lia.
Qed.

Lemma snow_S s t q r : snow s (S t) q r = snow s t q r || (alive_around (snow s t) q r =? 1).
Proof. reflexivity. Qed.
Lemma flake_S t q r : flake (S t) q r = flake t q r || (alive_around (flake t) q r =? 1).
Proof. reflexivity. Qed.
Lemma flake_0 q r : flake 0 q r = (q =? 0) && (r =? 0).
Proof. reflexivity. Qed.

Lemma snow_grows s t n q r : snow s t q r = true -> snow s (n + t) q r = true.
Proof. intros H. induction n as [|n IH]; [exact H|]. cbn [Nat.add]. rewrite snow_S, IH. reflexivity. Qed.

Lemma around_le s s' q r : (forall q r, s q r = true -> s' q r = true) -> alive_around s q r <= alive_around s' q r.
Proof.
  intros H. rewrite !around.
  assert (Hm : forall q r, bz (s q r) <= bz (s' q r)) by (intros a b; specialize (H a b); destruct (s a b); [rewrite H by reflexivity; lia|destruct (s' a b); lia]).
  pose proof (Hm (q + 1) r). pose proof (Hm q (r + 1)). pose proof (Hm (q - 1) (r + 1)). pose proof (Hm (q - 1) r). pose proof (Hm q (r - 1)). pose proof (Hm (q + 1) (r - 1)). lia.
Qed.

(** a dead cell with two live cells around it stays dead *)
Lemma dead_for_ever s t q r : snow s t q r = false -> 2 <= alive_around (snow s t) q r -> forall n, snow s (n + t) q r = false.
Proof.
  intros Hd H2. induction n as [|n IH]; [exact Hd|]. cbn [Nat.add]. rewrite snow_S, IH. cbn [orb]. apply Z.eqb_neq.
  pose proof (around_le (snow s t) (snow s (n + t)) q r (fun a b => snow_grows s t n a b)). lia.
Qed.

Lemma around_ext s s' q r : (forall d, In d six -> s (q + fst d) (r + snd d) = s' (q + fst d) (r + snd d)) -> alive_around s q r = alive_around s' q r.
Proof. intros H. unfold alive_around. f_equal. apply map_ext_in. intros d Hd. rewrite H by assumption. reflexivity. Qed.

Lemma six_near d : In d six -> in_hexagon 1 (fst d) (snd d).
Proof. unfold six, in_hexagon. cbn [In]. intros H. repeat destruct H as [H|H]; try destruct H; cbn [fst snd]; lia. Qed.

(** after t steps a cell has seen the hexagon of radius t around it and nothing else *)
Lemma snow_sees s s' t : forall q r, (forall x y, in_hexagon (Z.of_nat t) (x - q) (y - r) -> s x y = s' x y) -> snow s t q r = snow s' t q r.
Proof.
  induction t as [|t IH]; intros q r H; [apply H; unfold in_hexagon; lia|]. rewrite !snow_S.
  rewrite (IH q r) by (intros x y Hxy; apply H; unfold in_hexagon in *; lia). f_equal. f_equal. apply around_ext. intros d Hd. apply six_near in Hd. apply IH. intros x y Hxy. apply H. unfold in_hexagon in *. lia.
Qed.

Lemma snow_nothing t q r : snow (fun _ _ => false) t q r = false.
Proof. revert q r. induction t as [|t IH]; intros q r; [reflexivity|]. rewrite snow_S, IH, around, !IH. reflexivity. Qed.

(** ** nothing is alive outside the hexagon of radius t *)
Lemma flake_cone t : forall q r, flake t q r = true -> in_hexagon (Z.of_nat t) q r.
Proof.
  induction t as [|t IH]; intros q r H.
  - rewrite flake_0 in H. apply andb_true_iff in H. destruct H as [Hq Hr]. apply Z.eqb_eq in Hq, Hr. subst. unfold in_hexagon. cbn. lia.
  - rewrite flake_S, orb_true_iff in H. destruct H as [H|H].
    + apply IH in H. unfold in_hexagon in *. lia.
    + apply Z.eqb_eq in H. rewrite around in H. unfold in_hexagon in *.
      destruct (flake t (q + 1) r) eqn:E1; [apply IH in E1; lia|]. destruct (flake t q (r + 1)) eqn:E2; [apply IH in E2; lia|].
      destruct (flake t (q - 1) (r + 1)) eqn:E3; [apply IH in E3; lia|]. destruct (flake t (q - 1) r) eqn:E4; [apply IH in E4; lia|].
      destruct (flake t q (r - 1)) eqn:E5; [apply IH in E5; lia|]. destruct (flake t (q + 1) (r - 1)) eqn:E6; [apply IH in E6; lia|]. lia.
Qed.

Lemma flake_out t q r : ~ in_hexagon (Z.of_nat t) q r -> flake t q r = false.
Proof. intros H. destruct (flake t q r) eqn:E; [|reflexivity]. apply flake_cone in E. contradiction. Qed.

(** ** symmetries *)
Lemma flake_turn t : forall q r, flake t (- r) (q + r) = flake t q r.
Proof.
  induction t as [|t IH]; intros q r.
  - rewrite !flake_0. destruct (Z.eqb_spec (- r) 0), (Z.eqb_spec (q + r) 0), (Z.eqb_spec q 0), (Z.eqb_spec r 0); cbn [andb]; reflexivity || lia.
  - rewrite !flake_S, IH. f_equal. rewrite !around.
    replace (flake t (- r + 1) (q + r)) with (flake t (q + 1) (r - 1)) by (rewrite <- IH; f_equal; lia).
    replace (flake t (- r) (q + r + 1)) with (flake t (q + 1) r) by (rewrite <- IH; f_equal; lia).
    replace (flake t (- r - 1) (q + r + 1)) with (flake t q (r + 1)) by (rewrite <- IH; f_equal; lia).
    replace (flake t (- r - 1) (q + r)) with (flake t (q - 1) (r + 1)) by (rewrite <- IH; f_equal; lia).
    replace (flake t (- r) (q + r - 1)) with (flake t (q - 1) r) by (rewrite <- IH; f_equal; lia).
    replace (flake t (- r + 1) (q + r - 1)) with (flake t q (r - 1)) by (rewrite <- IH; f_equal; lia).
    apply f_equal2; [lia|reflexivity].
Qed.

Lemma flake_mirror t : forall q r, flake t r q = flake t q r.
Proof.
  induction t as [|t IH]; intros q r; [rewrite !flake_0; apply andb_comm|]. rewrite !flake_S, IH. f_equal. rewrite !around.
  rewrite (IH (q + 1) r), (IH q (r + 1)), (IH (q + 1) (r - 1)), (IH q (r - 1)), (IH (q - 1) r), (IH (q - 1) (r + 1)). apply f_equal2; [lia|reflexivity].
Qed.

(** ** the boundary: row t of Pascal's triangle modulo 2 between two tips *)
Lemma odd_xor a b : Z.odd (a + b) = xorb (Z.odd a) (Z.odd b).
Proof. apply Z.odd_add. Qed.

Lemma frontier t : forall i, (i <= t)%nat -> flake t (Z.of_nat (t - i)) (Z.of_nat i) = Z.odd (binom t i).
Proof.
  induction t as [|t IH]; intros i Hi.
  - replace i with 0%nat by lia. reflexivity.
  - rewrite flake_S. rewrite (flake_out t _ _) by (unfold in_hexagon; lia). cbn [orb]. rewrite around.
    rewrite (flake_out t (_ + 1) (Z.of_nat i)) by (unfold in_hexagon; lia). rewrite (flake_out t _ (Z.of_nat i + 1)) by (unfold in_hexagon; lia).
    rewrite (flake_out t (_ - 1) (Z.of_nat i + 1)) by (unfold in_hexagon; lia). rewrite (flake_out t (_ + 1) (Z.of_nat i - 1)) by (unfold in_hexagon; lia).
    destruct i as [|i].
    + rewrite binom_0. rewrite (flake_out t _ (Z.of_nat 0 - 1)) by (unfold in_hexagon; lia). replace (Z.of_nat (S t - 0) - 1) with (Z.of_nat (t - 0)) by lia. rewrite (IH 0%nat) by lia. rewrite binom_0. reflexivity.
    + rewrite binom_S, odd_xor. destruct (Nat.eq_dec i t) as [->|Hne].
      * rewrite (flake_out t (Z.of_nat (S t - S t) - 1)) by (unfold in_hexagon; lia). replace (Z.of_nat (S t - S t)) with (Z.of_nat (t - t)) by lia. replace (Z.of_nat (S t) - 1) with (Z.of_nat t) by lia. rewrite (IH t) by lia.
        rewrite binom_diag, (binom_high t (S t)) by lia. reflexivity.
      * replace (Z.of_nat (S t - S i) - 1) with (Z.of_nat (t - S i)) by lia. rewrite (IH (S i)) by lia. replace (Z.of_nat (S t - S i)) with (Z.of_nat (t - i)) by lia. replace (Z.of_nat (S i) - 1) with (Z.of_nat i) by lia. rewrite (IH i) by lia.
        destruct (Z.odd (binom t i)), (Z.odd (binom t (S i))); reflexivity.
Qed.

(** ** rows 2^k and 2^k - 1 of Pascal's triangle modulo 2 *)
Definition row_ends (n : nat) : Prop := forall i, (0 < i < n)%nat -> Z.odd (binom n i) = false.
Lemma shifted_row n : (0 < n)%nat -> row_ends n -> forall j i, Z.odd (binom (n + j) i) = xorb (Z.odd (binom j i)) (if (n <=? i)%nat then Z.odd (binom j (i - n)) else false).
Proof.
  intros Hn Hr. induction j as [|j IH]; intros i.
  - rewrite Nat.add_0_r. destruct (Nat.leb_spec n i).
    + destruct (Nat.eq_dec i n) as [->|]; [rewrite Nat.sub_diag, binom_diag, (binom_high 0 n) by lia; reflexivity|]. rewrite !binom_high by lia. reflexivity.
    + destruct i as [|i]; [rewrite !binom_0; reflexivity|]. rewrite (Hr (S i)) by lia. rewrite binom_high by lia. reflexivity.
  - rewrite Nat.add_succ_r. destruct i as [|i]; [rewrite !binom_0; destruct (Nat.leb_spec n 0); [lia|reflexivity]|]. rewrite !binom_S, !odd_xor, !IH.
    destruct (Nat.leb_spec n i), (Nat.leb_spec n (S i)); try lia.
    + replace (S i - n)%nat with (S (i - n)) by lia. rewrite binom_S, odd_xor. destruct (Z.odd (binom j i)), (Z.odd (binom j (S i))), (Z.odd (binom j (i - n))), (Z.odd (binom j (S (i - n)))); reflexivity.
    + replace (S i - n)%nat with 0%nat by lia. rewrite !binom_0. destruct (Z.odd (binom j i)), (Z.odd (binom j (S i))); reflexivity.
    + rewrite !xorb_false_r. reflexivity.
Qed.

Lemma ends_pow k : row_ends (2 ^ k).
Proof.
  induction k as [|k IH]; [intros i Hi; cbn in Hi; lia|]. intros i Hi. assert (Hp : (0 < 2 ^ k)%nat) by (apply Nat.neq_0_lt_0, Nat.pow_nonzero; lia).
  rewrite Nat.pow_succ_r' in *. replace (2 * 2 ^ k)%nat with (2 ^ k + 2 ^ k)%nat in * by lia. rewrite (shifted_row _ Hp IH).
  destruct (Nat.leb_spec (2 ^ k) i).
  - destruct (Nat.eq_dec i (2 ^ k)) as [->|]; [rewrite Nat.sub_diag, binom_diag, binom_0; reflexivity|]. rewrite (binom_high (2 ^ k) i), (IH (i - 2 ^ k)%nat) by lia. reflexivity.
  - rewrite (IH i) by lia. reflexivity.
Qed.

Lemma full_row k i : (i <= 2 ^ k - 1)%nat -> Z.odd (binom (2 ^ k - 1) i) = true.
Proof.
  assert (Hp : (0 < 2 ^ k)%nat) by (apply Nat.neq_0_lt_0, Nat.pow_nonzero; lia). induction i as [|i IH]; intros Hi; [rewrite binom_0; reflexivity|].
  pose proof (ends_pow k (S i) ltac:(lia)) as E. replace (2 ^ k)%nat with (S (2 ^ k - 1)) in E by lia. rewrite binom_S, odd_xor, IH in E by lia. destruct (Z.odd (binom (2 ^ k - 1) (S i))); [reflexivity|discriminate].
Qed.

(** * Proofs: the Fredkin automata *)
From Verif Require Import Py PyFacts ListFacts Network Topology TopologySpec TopologyProofs TopologyProofs2 TopologyProofs3 TopologyProofs4.
From Verif Require Import Evolve EvolveSpec EvolveProofs EvolveStatic CaSpec CaRun CaNets Fredkin.
From Coq Require Import Znumtheory.
Open Scope string_scope.
Open Scope list_scope.
Open Scope Z_scope.

(** ** binomial coefficients *)
Fixpoint binom (n t : nat) : Z :=
  match n, t with
  | O, O => 1 | O, S _ => 0
  | S n', O => 1 | S n', S t' => binom n' t' + binom n' t
  end.
Lemma binom_0 n : binom n 0 = 1.
Proof. destruct n; reflexivity. Qed.
Lemma binom_S n t : binom (S n) (S t) = binom n t + binom n (S t).
Proof. reflexivity. Qed.
Lemma binom_high n : forall t, (n < t)%nat -> binom n t = 0.
Proof. induction n as [|n IH]; intros [|t] Ht; try lia; [reflexivity|]. rewrite binom_S, !IH by lia. reflexivity. Qed.
Lemma binom_diag n : binom n n = 1.
Proof. induction n as [|n IH]; [reflexivity|]. rewrite binom_S, IH, binom_high by lia. reflexivity. Qed.
Lemma binom_absorb n : forall t, Z.of_nat (S t) * binom (S n) (S t) = Z.of_nat (S n) * binom n t.
Proof.
  induction n as [|n IH]; intros t.
  - destruct t as [|t]; [reflexivity|]. rewrite binom_S. cbn [binom]. destruct t; cbn; lia.
  - rewrite binom_S. destruct t as [|t].
    + rewrite binom_0. pose proof (IH 0%nat) as E. rewrite binom_0 in E. lia.
    + pose proof (IH t) as E1. pose proof (IH (S t)) as E2. pose proof (binom_S n t) as E3.
      rewrite Z.mul_add_distr_l, E2. rewrite (Nat2Z.inj_succ (S t)), (Nat2Z.inj_succ (S n)), !Z.mul_succ_l, E1, E3. lia.
Qed.
Lemma prime_binom p t : prime (Z.of_nat p) -> (0 < t < p)%nat -> (Z.of_nat p | binom p t).
Proof.
  intros Hp Ht. destruct p as [|p]; [lia|]. destruct t as [|t]; [lia|]. pose proof (binom_absorb p t) as E.
  assert (Hd : (Z.of_nat (S p) | Z.of_nat (S t) * binom (S p) (S t))) by (rewrite E; apply Z.divide_factor_l).
  apply prime_mult in Hd; [|assumption]. destruct Hd as [Hd|Hd]; [|assumption]. apply Z.divide_pos_le in Hd; lia.
Qed.

Fixpoint nsum (f : nat -> Z) (n : nat) : Z := match n with O => 0 | S n' => f 0%nat + nsum (fun t => f (S t)) n' end.
Lemma nsum_ext n : forall f g, (forall t, (t < n)%nat -> f t = g t) -> nsum f n = nsum g n.
Proof. induction n as [|n IH]; intros f g E; [reflexivity|]. cbn. rewrite (E 0%nat) by lia. f_equal. apply IH. intros t Ht. apply E. lia. Qed.
Lemma nsum_add n : forall f g, nsum (fun t => f t + g t) n = nsum f n + nsum g n.
Proof. induction n as [|n IH]; intros f g; [reflexivity|]. cbn. rewrite IH. lia. Qed.
Lemma nsum_last n : forall f, nsum f (S n) = nsum f n + f n.
Proof. induction n as [|n IH]; intros f; [cbn; lia|]. pose proof (IH (fun t => f (S t))) as E. cbn [nsum] in *. lia. Qed.
Lemma nsum_divide m n : forall f, (forall t, (t < n)%nat -> (m | f t)) -> (m | nsum f n).
Proof. induction n as [|n IH]; intros f Hf; [apply Z.divide_0_r|]. cbn. apply Z.divide_add_r; [apply Hf; lia|apply IH; intros; apply Hf; lia]. Qed.

(** two commuting steps *)
Fixpoint paths (D : nat -> nat -> Z) (n i j : nat) : Z := match n with O => D i j | S n' => paths D n' (S i) j + paths D n' i (S j) end.
Lemma paths_binom D n : forall i j, paths D n i j = nsum (fun t => binom n t * D (i + t)%nat (j + (n - t))%nat) (S n).
Proof.
  induction n as [|n IH]; intros i j; [cbn [paths nsum binom]; rewrite !Nat.add_0_r; lia|]. cbn [paths]. rewrite !IH.
  set (E := fun t => D (i + t)%nat (j + (S n - t))%nat).
  transitivity (nsum (fun t => binom n t * E (S t)) (S n) + nsum (fun t => binom n t * E t) (S n)).
  { f_equal; apply nsum_ext; intros t Ht; unfold E; do 2 f_equal; lia. }
  change (nsum (fun t => binom (S n) t * D (i + t)%nat (j + (S n - t))%nat) (S (S n))) with (nsum (fun t => binom (S n) t * E t) (S (S n))).
  assert (E1 : nsum (fun t => binom (S n) t * E t) (S (S n)) = E 0%nat + nsum (fun t => binom n t * E (S t) + binom n (S t) * E (S t)) (S n)).
  { change (nsum (fun t => binom (S n) t * E t) (S (S n))) with (binom (S n) 0 * E 0%nat + nsum (fun t => binom (S n) (S t) * E (S t)) (S n)). rewrite binom_0. f_equal; [lia|]. apply nsum_ext. intros t Ht. rewrite binom_S. lia. }
  rewrite E1, nsum_add. assert (E2 : nsum (fun t => binom n t * E t) (S n) = E 0%nat + nsum (fun t => binom n (S t) * E (S t)) (S n)); [|lia].
  transitivity (nsum (fun t => binom n t * E t) (S (S n))); [rewrite (nsum_last (S n)), binom_high by lia; lia|].
  change (nsum (fun t => binom n t * E t) (S (S n))) with (binom n 0 * E 0%nat + nsum (fun t => binom n (S t) * E (S t)) (S n)). rewrite binom_0. lia.
Qed.
Lemma paths_prime D p i j : prime (Z.of_nat p) -> (paths D p i j) mod (Z.of_nat p) = (D (i + p)%nat j + D i (j + p)%nat) mod (Z.of_nat p).
Proof.
  intros Hp. pose proof (prime_ge_2 _ Hp). rewrite paths_binom, nsum_last, binom_diag. replace (j + (p - p))%nat with j by lia. destruct p as [|p]; [lia|]. cbn [nsum].
  rewrite binom_0. rewrite Nat.add_0_r. replace (S p - 0)%nat with (S p) by lia.
  destruct (nsum_divide (Z.of_nat (S p)) p (fun t => binom (S p) (S t) * D (i + S t)%nat (j + (S p - S t))%nat)) as [q Eq].
  { intros t Ht. apply Z.divide_mul_l, prime_binom; [assumption|lia]. }
  rewrite Eq. rewrite !Z.mul_1_l. replace (D i (j + S p)%nat + q * Z.of_nat (S p) + D (i + S p)%nat j) with (D (i + S p)%nat j + D i (j + S p)%nat + q * Z.of_nat (S p)) by lia.
  apply Z_mod_plus_full.
Qed.

(** ** sums over offsets, on the plane *)
Definition plane := (Z -> Z -> Z).
Definition spread (O : list (Z * Z)) (s : plane) : plane := fun a b => zsum (map (fun d => s (a + fst d) (b + snd d)) O).
Definition scale (q : Z) (O : list (Z * Z)) : list (Z * Z) := map (fun d => (q * fst d, q * snd d)) O.

Lemma zsum_add2 {X} (f g : X -> Z) l : zsum (map (fun x => f x + g x) l) = zsum (map f l) + zsum (map g l).
Proof. induction l as [|x l IH]; [reflexivity|]. cbn. rewrite IH. lia. Qed.
Lemma zsum_mod {X} p (f g : X -> Z) l : (forall x, In x l -> f x mod p = g x mod p) -> zsum (map f l) mod p = zsum (map g l) mod p.
Proof.
  induction l as [|x l IH]; intros E; [reflexivity|]. cbn. rewrite (Zplus_mod (f x)), (Zplus_mod (g x)), (E x), IH; auto with datatypes.
Qed.
Lemma zsum_swap {X Y} (f : X -> Y -> Z) l l' : zsum (map (fun x => zsum (map (f x) l')) l) = zsum (map (fun y => zsum (map (fun x => f x y) l)) l').
Proof.
  induction l as [|x l IH]; cbn [map zsum].
  - induction l' as [|y l' IH']; [reflexivity|]. cbn. exact IH'.
  - rewrite IH. rewrite <- zsum_add2. reflexivity.
Qed.

Definition ext (s s' : plane) : Prop := forall a b, s a b = s' a b.
Definition ext_mod (p : Z) (s s' : plane) : Prop := forall a b, s a b mod p = s' a b mod p.
Definition iter_spread (O : list (Z * Z)) (n : nat) (s : plane) : plane := Nat.iter n (spread O) s.

Lemma spread_ext O s s' : ext s s' -> ext (spread O s) (spread O s').
Proof. intros E a b. unfold spread. f_equal. apply map_ext. intros d. apply E. Qed.
Lemma spread_mod p O s s' : ext_mod p s s' -> ext_mod p (spread O s) (spread O s').
Proof. intros E a b. unfold spread. apply zsum_mod. intros d _. apply E. Qed.
Lemma iter_ext O n s s' : ext s s' -> ext (iter_spread O n s) (iter_spread O n s').
Proof. intros E. induction n as [|n IH]; [assumption|]. apply spread_ext. assumption. Qed.
Lemma iter_mod p O n s s' : ext_mod p s s' -> ext_mod p (iter_spread O n s) (iter_spread O n s').
Proof. intros E. induction n as [|n IH]; [assumption|]. apply spread_mod. assumption. Qed.
Lemma iter_add O n m s : iter_spread O (n + m) s = iter_spread O n (iter_spread O m s).
Proof. induction n as [|n IH]; [reflexivity|]. exact (f_equal (spread O) IH). Qed.
Lemma iter_plus O n s s' : ext (iter_spread O n (fun a b => s a b + s' a b)) (fun a b => iter_spread O n s a b + iter_spread O n s' a b).
Proof.
  induction n as [|n IH]; intros a b; [reflexivity|]. change (spread O (iter_spread O n (fun a b => s a b + s' a b)) a b = spread O (iter_spread O n s) a b + spread O (iter_spread O n s') a b).
  rewrite (spread_ext O _ _ IH a b). unfold spread. apply zsum_add2.
Qed.
Definition shift (d : Z * Z) (s : plane) : plane := fun a b => s (a + fst d) (b + snd d).
Lemma shift_iter d i s a b : Nat.iter i (shift d) s a b = s (a + Z.of_nat i * fst d) (b + Z.of_nat i * snd d).
Proof.
  revert a b. induction i as [|i IH]; intros a b; [cbn; f_equal; lia|]. change (Nat.iter i (shift d) s (a + fst d) (b + snd d) = s (a + Z.of_nat (S i) * fst d) (b + Z.of_nat (S i) * snd d)). rewrite IH. f_equal; lia.
Qed.
Lemma shift_spread d O s : ext (shift d (spread O s)) (spread O (shift d s)).
Proof. intros a b. unfold shift, spread. f_equal. apply map_ext. intros e. f_equal; lia. Qed.
Lemma shift_iter_spread d O n s : ext (shift d (iter_spread O n s)) (iter_spread O n (shift d s)).
Proof.
  induction n as [|n IH]; [intros a b; reflexivity|]. intros a b. change (shift d (spread O (iter_spread O n s)) a b = spread O (iter_spread O n (shift d s)) a b).
  rewrite (shift_spread d O _ a b). apply spread_ext. exact IH.
Qed.

Definition D (d : Z * Z) (O : list (Z * Z)) (s : plane) (a b : Z) (i j : nat) : Z := Nat.iter i (shift d) (iter_spread O j s) a b.

Lemma iter_paths d O s a b n : forall i j, iter_spread (d :: O) n (Nat.iter i (shift d) (iter_spread O j s)) a b = paths (D d O s a b) n i j.
Proof.
  induction n as [|n IH]; intros i j; [reflexivity|]. cbn [paths]. rewrite <- !IH.
  replace (S n) with (n + 1)%nat by lia. rewrite iter_add. rewrite <- (iter_plus (d :: O) n _ _ a b). apply iter_ext. clear. intros a b.
  change (iter_spread (d :: O) 1 ?u) with (spread (d :: O) u). unfold spread. cbn [map]. change (zsum (?x :: ?l)) with (x + zsum l).
  f_equal.
  change (zsum (map (fun d0 => Nat.iter i (shift d) (iter_spread O j s) (a + fst d0) (b + snd d0)) O)) with (spread O (Nat.iter i (shift d) (iter_spread O j s)) a b).
  assert (Hc : forall u, ext (spread O (Nat.iter i (shift d) u)) (Nat.iter i (shift d) (spread O u))).
  { intros u. induction i as [|i IHi]; intros x y; [reflexivity|]. change (spread O (shift d (Nat.iter i (shift d) u)) x y = shift d (Nat.iter i (shift d) (spread O u)) x y). rewrite <- (shift_spread d O _ x y). unfold shift at 1 3. apply IHi. }
  apply Hc.
Qed.

(** the freshman's dream *)
Lemma frobenius p O s : prime (Z.of_nat p) -> ext_mod (Z.of_nat p) (iter_spread O p s) (spread (scale (Z.of_nat p) O) s).
Proof.
  intros Hp. pose proof (prime_ge_2 _ Hp) as Hp2. induction O as [|d O IH]; intros a b.
  - destruct p as [|p]; [lia|]. reflexivity.
  - pose proof (iter_paths d O s a b p 0 0) as E. change (Nat.iter 0 (shift d) (iter_spread O 0 s)) with s in E. rewrite E, paths_prime by assumption. cbn [Nat.add].
    unfold D at 1 2. rewrite shift_iter. change (Nat.iter 0 (shift d) (iter_spread O p s)) with (iter_spread O p s). change (iter_spread O 0 s) with s.
    unfold spread, scale. cbn [map]. change (zsum (?x :: ?l)) with (x + zsum l). cbn [fst snd]. rewrite Zplus_mod, (IH a b), <- Zplus_mod. unfold spread, scale. reflexivity.
Qed.

Lemma scale_scale q q' O : scale q (scale q' O) = scale (q * q') O.
Proof. unfold scale. rewrite map_map. apply map_ext. intros d. cbn. f_equal; lia. Qed.
Lemma scale_1 O : scale 1 O = O.
Proof. unfold scale. rewrite <- (map_id O) at 2. apply map_ext. intros [x y]. cbn [fst snd]. rewrite !Z.mul_1_l. reflexivity. Qed.

Lemma iter_mul O n m s : Nat.iter m (iter_spread O n) s = iter_spread O (m * n) s.
Proof. induction m as [|m IH]; [reflexivity|]. change (S m * n)%nat with (n + m * n)%nat. rewrite iter_add, <- IH. reflexivity. Qed.

Lemma frobenius_pow p O k s : prime (Z.of_nat p) -> ext_mod (Z.of_nat p) (iter_spread O (p ^ k) s) (spread (scale (Z.of_nat p ^ Z.of_nat k) O) s).
Proof.
  intros Hp. revert s. induction k as [|k IH]; intros s a b.
  - cbn [Nat.pow]. rewrite scale_1. reflexivity.
  - cbn [Nat.pow]. rewrite Nat2Z.inj_succ, Z.pow_succ_r by lia. rewrite <- scale_scale.
    transitivity (iter_spread (scale (Z.of_nat p ^ Z.of_nat k) O) p s a b mod Z.of_nat p); [|apply (frobenius p _ s Hp a b)].
    rewrite <- iter_mul.
    assert (Hn : forall n, ext_mod (Z.of_nat p) (Nat.iter n (iter_spread O (p ^ k)) s) (iter_spread (scale (Z.of_nat p ^ Z.of_nat k) O) n s)); [|apply Hn].
    induction n as [|n IHn]; intros x y; [reflexivity|].
    change (iter_spread O (p ^ k) (Nat.iter n (iter_spread O (p ^ k)) s) x y mod Z.of_nat p = spread (scale (Z.of_nat p ^ Z.of_nat k) O) (iter_spread (scale (Z.of_nat p ^ Z.of_nat k) O) n s) x y mod Z.of_nat p).
    rewrite (IH _ x y). apply spread_mod. exact IHn.
Qed.

(** ** the torus *)
Lemma mod_near m a d e : 0 < m -> Z.abs (d - e) < m -> (a + d) mod m = (a + e) mod m -> d = e.
Proof.
  intros Hm Hd E. pose proof (Z.div_mod (a + d) m ltac:(lia)) as E1. pose proof (Z.div_mod (a + e) m ltac:(lia)) as E2.
  rewrite E in E1. revert E1 E2. generalize ((a + d) / m), ((a + e) / m), ((a + e) mod m). intros q q' r E1 E2.
  assert (q = q') by nia. subst. lia.
Qed.

Definition lift (rows cols : Z) (s : Z -> Z) : plane := fun a b => s (a mod rows * cols + b mod cols).

Section Torus.
  Variables (rows cols r : Z) (nbh : string) (f : Z -> list Z) (O : list (Z * Z)).
  Hypotheses (Hr : 0 <= r) (Hrows : 2 * r + 1 <= rows) (Hcols : 2 * r + 1 <= cols).
  Hypothesis Hnd : forall v, 0 <= v < rows * cols -> NoDup (f v).
  Hypothesis Hub : forall v w, 0 <= v < rows * cols -> In w (f v) -> 0 <= w < rows * cols.
  Hypothesis Hin : forall a b c d, 0 <= a < rows -> 0 <= b < cols -> 0 <= c < rows -> 0 <= d < cols ->
    (In (c * cols + d) (f (a * cols + b)) <-> torus_step rows cols (offset_of nbh r) a b c d).
  Hypothesis HO : NoDup O.
  Hypothesis HOin : forall dx dy, In (dx, dy) O <-> offset_of nbh r dx dy /\ (dx, dy) <> (0, 0).

  Lemma offset_small dx dy : offset_of nbh r dx dy -> Z.abs dx <= r /\ Z.abs dy <= r.
  Proof. unfold offset_of, moore_offset, von_neumann_offset. destruct (String.eqb nbh "Moore"); lia. Qed.
  Lemma offset_here : offset_of nbh r 0 0.
  Proof. unfold offset_of, moore_offset, von_neumann_offset. destruct (String.eqb nbh "Moore"); lia. Qed.
  Lemma offset_all dx dy : In (dx, dy) ((0, 0) :: O) <-> offset_of nbh r dx dy.
  Proof.
    cbn [In]. rewrite HOin. split.
    - intros [E|[E _]]; [injection E as <- <-; apply offset_here|assumption].
    - intros E. destruct (Z.eq_dec dx 0) as [->|Hx]; [destruct (Z.eq_dec dy 0) as [->|Hy]; [left; reflexivity|]|]; right; (split; [assumption|congruence]).
  Qed.

  Lemma torus_perm a b : 0 <= a < rows -> 0 <= b < cols ->
    Permutation (f (a * cols + b)) (map (fun d => (a + fst d) mod rows * cols + (b + snd d) mod cols) ((0, 0) :: O)).
  Proof.
    intros Ha Hb. pose proof (cell_bound rows cols a b Ha Hb) as Hv. unfold cell in Hv. apply NoDup_Permutation; [apply Hnd; assumption| |].
    - apply NoDup_map_on; [|constructor; [intros E; apply HOin in E; destruct E as [_ E]; congruence|assumption]].
      intros [dx dy] [ex ey] Hd He E. apply offset_all, offset_small in Hd. apply offset_all, offset_small in He. cbn [fst snd] in E.
      pose proof (Z.mod_pos_bound (a + dx) rows ltac:(lia)). pose proof (Z.mod_pos_bound (a + ex) rows ltac:(lia)).
      pose proof (Z.mod_pos_bound (b + dy) cols ltac:(lia)). pose proof (Z.mod_pos_bound (b + ey) cols ltac:(lia)).
      assert (E1 : (a + dx) mod rows = (a + ex) mod rows) by nia. assert (E2 : (b + dy) mod cols = (b + ey) mod cols) by nia.
      apply mod_near in E1; [|lia|lia]. apply mod_near in E2; [|lia|lia]. congruence.
    - intros w. rewrite in_map_iff. split.
      + intros Hw. pose proof (Hub _ _ Hv Hw) as Hwr. destruct (cell_surj rows cols w ltac:(lia) Hwr) as (Ew & Hc & Hd). unfold cell in Ew.
        rewrite Ew in Hw. apply Hin in Hw; [|assumption..]. destruct Hw as (dx & dy & Ho & E1 & E2). exists (dx, dy). cbn [fst snd]. rewrite <- E1, <- E2. split; [symmetry; assumption|apply offset_all; assumption].
      + intros ([dx dy] & <- & Hd). cbn [fst snd]. apply Hin; [assumption|assumption|apply Z.mod_pos_bound; lia|apply Z.mod_pos_bound; lia|].
        exists dx, dy. split; [apply offset_all; assumption|auto].
  Qed.

  Variable p : Z.
  Definition fred (v c : Z) (l : list Z) : Z := (zsum l - c) mod p.
  Lemma fred_next s a b : lift rows cols (ca_next f fred s) a b = spread O (lift rows cols s) a b mod p.
  Proof.
    unfold lift at 1, ca_next, fred. pose proof (Z.mod_pos_bound a rows ltac:(lia)) as Ha. pose proof (Z.mod_pos_bound b cols ltac:(lia)) as Hb.
    rewrite (zsum_perm _ _ (Permutation_map s (torus_perm _ _ Ha Hb))). cbn [map fst snd]. change (zsum (?x :: ?l)) with (x + zsum l).
    rewrite !Z.add_0_r, !Z.mod_mod by lia. rewrite map_map. unfold spread, lift. f_equal.
    match goal with |- ?x + ?y - ?x = ?z => enough (y = z) by lia end. f_equal. apply map_ext. intros d. rewrite !Zplus_mod_idemp_l. reflexivity.
  Qed.
  Lemma fred_state k s : ext_mod p (lift rows cols (ca_state f fred k s)) (iter_spread O k (lift rows cols s)).
  Proof.
    induction k as [|k IH]; intros a b; [reflexivity|]. rewrite ca_state_S, fred_next, Zmod_mod. change (iter_spread O (S k) ?u) with (spread O (iter_spread O k u)). apply spread_mod. exact IH.
  Qed.
  Lemma fred_replicates k s a b : prime p -> lift rows cols (ca_state f fred (Z.to_nat (p ^ Z.of_nat k)) s) a b = spread (scale (p ^ Z.of_nat k) O) (lift rows cols s) a b mod p.
  Proof.
    intros Hp. pose proof (prime_ge_2 _ Hp) as Hp2. destruct (Z_of_nat_complete p ltac:(lia)) as [m Em].
    pose proof (frobenius_pow m O k (lift rows cols s)) as Hfr. rewrite <- Em in Hfr. specialize (Hfr Hp a b). rewrite <- Hfr.
    assert (Ek : Z.to_nat (p ^ Z.of_nat k) = (m ^ k)%nat) by (rewrite Em, <- Nat2Z.inj_pow, Nat2Z.id; reflexivity). rewrite Ek, <- fred_state.
    assert (Hpos : (m ^ k <> 0)%nat) by (apply Nat.pow_nonzero; lia). destruct (m ^ k)%nat as [|j]; [congruence|].
    rewrite ca_state_S, fred_next, Zmod_mod. reflexivity.
  Qed.
End Torus.

Lemma zsum_single {X} (g : X -> Z) (l : list X) x : NoDup l -> In x l -> (forall y, In y l -> y <> x -> g y = 0) -> zsum (map g l) = g x.
Proof.
  induction l as [|y l IH]; intros Hnd Hx Hz; [destruct Hx|]. inversion Hnd as [|? ? Hn Hnd']; subst. cbn [map]. change (zsum (?u :: ?v)) with (u + zsum v). destruct Hx as [->|Hx].
  - assert (E : zsum (map g l) = 0); [|lia]. clear IH Hnd Hnd'. induction l as [|z l IH]; [reflexivity|]. cbn [map]. change (zsum (?u :: ?v)) with (u + zsum v).
    rewrite (Hz z) by (cbn in *; intuition congruence). rewrite IH; [reflexivity|cbn in Hn; tauto|]. intros y [->|Hy]; apply Hz; cbn; auto.
  - rewrite (Hz y); [|left; reflexivity|intros ->; contradiction]. rewrite IH; [reflexivity|assumption|assumption|]. intros z Hzl. apply Hz. cbn. auto.
Qed.
Lemma zsum_none {X} (g : X -> Z) (l : list X) : (forall y, In y l -> g y = 0) -> zsum (map g l) = 0.
Proof. induction l as [|y l IH]; intros Hz; [reflexivity|]. cbn [map]. change (zsum (?u :: ?v)) with (u + zsum v). rewrite (Hz y), IH; [reflexivity| |]; auto with datatypes. Qed.

(** two places of a window of width [q] cannot be a nonzero multiple of [q] apart on a ring of at least [(2r+1)q] cells *)
Lemma window m q r a i j x y : 0 < q -> (2 * r + 1) * q <= m -> 0 <= i < q -> 0 <= j < q -> Z.abs x <= r -> Z.abs y <= r ->
  (a + (i + q * x - q * y)) mod m = (a + j) mod m -> x = y /\ i = j.
Proof.
  intros Hq Hm Hi Hj Hx Hy E. apply mod_near in E; [|nia|nia]. assert (x = y) by nia. subst. lia.
Qed.

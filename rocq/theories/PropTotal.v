(** * C123: totalistic automata from one cell, on the line and on the plane *)
From Verif Require Import Py PyFacts ListFacts Network Topology TopologySpec TopologyProofs TopologyProofs2 Evolve EvolveSpec EvolveProofs EvolveStatic CaSpec CaRun CaNets Rules RulesSpec RulesProofs PropRules Utils PropUtils PropReversible PropCa HopfieldSpec HopfieldProofs HopfieldProofs2 TuringProofs2 RevSpec FredkinProofs DiodeSpec DiodeProofs FlakeSpec FlakeProofs PropRule30.
From Verif Require Import TotalSpec TotalDemo.
Open Scope string_scope.
Open Scope list_scope.
Open Scope Z_scope.

(** ** on the line and the plane *)
Lemma plane_S9 f a t x y : plane square9 f a (S t) x y = f (plane square9 f a t (x - 1) (y - 1) + plane square9 f a t (x - 1) y + plane square9 f a t (x - 1) (y + 1) +
  plane square9 f a t x (y - 1) + plane square9 f a t x y + plane square9 f a t x (y + 1) + plane square9 f a t (x + 1) (y - 1) + plane square9 f a t (x + 1) y + plane square9 f a t (x + 1) (y + 1)).
Proof. cbn [plane]. f_equal. unfold square9. cbn [map fst snd]. rewrite !zsum_cons. cbn [zsum fold_right]. rewrite !Z.add_0_r. change (?z + -1) with (z - 1). lia. Qed.
Lemma plane_S5 f a t x y : plane cross5 f a (S t) x y = f (plane cross5 f a t (x - 1) y + plane cross5 f a t x (y - 1) + plane cross5 f a t x y + plane cross5 f a t x (y + 1) + plane cross5 f a t (x + 1) y).
Proof. cbn [plane]. f_equal. unfold cross5. cbn [map fst snd]. rewrite !zsum_cons. cbn [zsum fold_right]. rewrite !Z.add_0_r. change (?z + -1) with (z - 1). lia. Qed.
Lemma line_S3 f a t x : line around3 f a (S t) x = f (line around3 f a t (x - 1) + line around3 f a t x + line around3 f a t (x + 1)).
Proof. cbn [line]. f_equal. unfold around3. cbn [map]. rewrite !zsum_cons. cbn [zsum fold_right]. rewrite !Z.add_0_r. change (?z + -1) with (z - 1). lia. Qed.
Lemma line_S2 f a t x : line around2 f a (S t) x = f (line around2 f a t (x - 1) + line around2 f a t x).
Proof. cbn [line]. f_equal. unfold around2. cbn [map]. rewrite !zsum_cons. cbn [zsum fold_right]. rewrite !Z.add_0_r. change (?z + -1) with (z - 1). lia. Qed.

(** the symmetries of the square, for every rule *)
Theorem C123_symmetry : forall f a t x y,
  (plane square9 f a t (- x) y = plane square9 f a t x y /\ plane square9 f a t y x = plane square9 f a t x y) /\
  (plane cross5 f a t (- x) y = plane cross5 f a t x y /\ plane cross5 f a t y x = plane cross5 f a t x y) /\
  line around3 f a t (- x) = line around3 f a t x.
Proof.
  intros f a t. induction t as [|t IH]; intros x y.
  - cbn [plane line]. assert (E : (- x =? 0) = (x =? 0)) by lia. rewrite E, (andb_comm (y =? 0)). auto.
  - rewrite !plane_S9, !plane_S5, !line_S3. replace (- x - 1) with (- (x + 1)) by lia. replace (- x + 1) with (- (x - 1)) by lia. split; [split|split; [split|]].
    + rewrite !(proj1 (proj1 (IH _ _))). f_equal. lia.
    + rewrite (proj2 (proj1 (IH (x - 1) (y - 1)))), (proj2 (proj1 (IH x (y - 1)))), (proj2 (proj1 (IH (x + 1) (y - 1)))), (proj2 (proj1 (IH (x - 1) y))), (proj2 (proj1 (IH x y))), (proj2 (proj1 (IH (x + 1) y))), (proj2 (proj1 (IH (x - 1) (y + 1)))), (proj2 (proj1 (IH x (y + 1)))), (proj2 (proj1 (IH (x + 1) (y + 1)))). f_equal. lia.
    + rewrite !(proj1 (proj1 (proj2 (IH _ _)))). f_equal. lia.
    + rewrite (proj2 (proj1 (proj2 (IH x (y - 1))))), (proj2 (proj1 (proj2 (IH (x - 1) y)))), (proj2 (proj1 (proj2 (IH x y)))), (proj2 (proj1 (proj2 (IH (x + 1) y)))), (proj2 (proj1 (proj2 (IH x (y + 1))))). f_equal. lia.
    + rewrite (proj2 (proj2 (IH (x + 1) 0))), (proj2 (proj2 (IH x 0))), (proj2 (proj2 (IH (x - 1) 0))). f_equal. lia.
Qed.
Print Assumptions C123_symmetry.

(** if the sum 0 gives 0: nothing outside the square, the diamond or the triangle *)
Theorem C123_cone : forall f a t x y, f 0 = 0 ->
  (Z.of_nat t < Z.max (Z.abs x) (Z.abs y) -> plane square9 f a t x y = 0) /\ (Z.of_nat t < Z.abs x + Z.abs y -> plane cross5 f a t x y = 0) /\ (Z.of_nat t < Z.abs x -> line around3 f a t x = 0) /\
  (x < 0 \/ Z.of_nat t < x -> line around2 f a t x = 0).
Proof.
  intros f a t x y H0. revert x y. induction t as [|t IH]; intros x y.
  - cbn [plane line]. destruct (Z.eqb_spec x 0), (Z.eqb_spec y 0); cbn [andb]; repeat split; intros; reflexivity || lia.
  - rewrite plane_S9, plane_S5, line_S3, line_S2. split; [|split; [|split]]; intros H.
    + rewrite !(fun u v => proj1 (IH u v)) by lia. exact H0.
    + rewrite !(fun u v => proj1 (proj2 (IH u v))) by lia. exact H0.
    + rewrite !(fun u => proj1 (proj2 (proj2 (IH u 0)))) by lia. exact H0.
    + rewrite !(fun u => proj2 (proj2 (proj2 (IH u 0)))) by lia. exact H0.
Qed.
Print Assumptions C123_cone.

(** the sides of the square at time t are row t of the one-dimensional automaton with the same code; the sides of the diamond are row t of the one that looks at two cells *)
Theorem C123_sides : forall f a t, f 0 = 0 ->
  (forall y, plane square9 f a t (Z.of_nat t) y = line around3 f a t y) /\ (forall j, 0 <= j <= Z.of_nat t -> plane cross5 f a t (Z.of_nat t - j) j = line around2 f a t j).
Proof.
  intros f a t H0. pose proof (fun t x y => C123_cone f a t x y H0) as Hc. induction t as [|t [IH1 IH2]]; (split; [intros y|intros j Hj]).
  - reflexivity.
  - assert (j = 0) by lia. subst. reflexivity.
  - rewrite plane_S9, line_S3. rewrite (proj1 (Hc t (Z.of_nat (S t)) _)), (proj1 (Hc t (Z.of_nat (S t)) _)), (proj1 (Hc t (Z.of_nat (S t)) _)), (proj1 (Hc t (Z.of_nat (S t) + 1) _)), (proj1 (Hc t (Z.of_nat (S t) + 1) _)), (proj1 (Hc t (Z.of_nat (S t) + 1) _)) by lia.
    replace (Z.of_nat (S t) - 1) with (Z.of_nat t) by lia. rewrite !IH1. f_equal. lia.
  - rewrite plane_S5, line_S2. rewrite (proj1 (proj2 (Hc t (Z.of_nat (S t) - j) j))), (proj1 (proj2 (Hc t (Z.of_nat (S t) - j) (j + 1)))), (proj1 (proj2 (Hc t (Z.of_nat (S t) - j + 1) j))) by lia.
    assert (E1 : plane cross5 f a t (Z.of_nat (S t) - j - 1) j = line around2 f a t j).
    { destruct (Z.eq_dec j (Z.of_nat (S t))) as [->|Hne]; [rewrite (proj1 (proj2 (Hc t _ _))), (proj2 (proj2 (proj2 (Hc t _ 0)))) by lia; reflexivity|]. rewrite <- IH2 by lia. f_equal. lia. }
    assert (E2 : plane cross5 f a t (Z.of_nat (S t) - j) (j - 1) = line around2 f a t (j - 1)).
    { destruct (Z.eq_dec j 0) as [->|Hne]; [rewrite (proj1 (proj2 (Hc t _ _))), (proj2 (proj2 (proj2 (Hc t _ 0)))) by lia; reflexivity|]. rewrite <- IH2 by lia. f_equal. lia. }
    rewrite E1, E2. f_equal. lia.
Qed.
Print Assumptions C123_sides.

(** code 126 on nine cells: the border of the square is black at all times *)
Lemma line_126 t x : line around3 (code_digit 2 126) 1 t x = if Z.abs x <=? Z.of_nat t then 1 else 0.
Proof.
  revert x. induction t as [|t IH]; intros x.
  - cbn [line]. destruct (Z.eqb_spec x 0), (Z.leb_spec (Z.abs x) (Z.of_nat 0)); lia || reflexivity.
  - rewrite line_S3, !IH. destruct (Z.leb_spec (Z.abs (x - 1)) (Z.of_nat t)), (Z.leb_spec (Z.abs x) (Z.of_nat t)), (Z.leb_spec (Z.abs (x + 1)) (Z.of_nat t)), (Z.leb_spec (Z.abs x) (Z.of_nat (S t))); try lia; reflexivity.
Qed.
Theorem C123_border : forall t x y, Z.max (Z.abs x) (Z.abs y) = Z.of_nat t -> plane square9 (code_digit 2 126) 1 t x y = 1.
Proof.
  assert (H : forall t x y, Z.abs x = Z.of_nat t -> Z.abs y <= Z.of_nat t -> plane square9 (code_digit 2 126) 1 t x y = 1).
  { intros t x y Hx Hy. assert (E : plane square9 (code_digit 2 126) 1 t x y = plane square9 (code_digit 2 126) 1 t (Z.of_nat t) y).
    { destruct (Z.eq_dec x (Z.of_nat t)) as [->|]; [reflexivity|]. replace x with (- Z.of_nat t) by lia. apply C123_symmetry. }
    rewrite E, (proj1 (C123_sides _ 1 t eq_refl)), line_126. destruct (Z.leb_spec (Z.abs y) (Z.of_nat t)); lia. }
  intros t x y Hm. destruct (Z.eq_dec (Z.abs x) (Z.of_nat t)); [apply H; lia|]. rewrite <- (proj2 (proj1 (C123_symmetry _ 1 t x y))). apply H; lia.
Qed.
Print Assumptions C123_border.

(** code 26 on five cells: the border of the diamond is Pascal's triangle modulo 2; all black at times 2^k - 1, only the corners at times 2^k *)
Lemma line_26 t j : line around2 (code_digit 2 26) 1 t (Z.of_nat j) = if Z.odd (binom t j) then 1 else 0.
Proof.
  revert j. induction t as [|t IH]; intros j.
  - destruct j as [|j]; [reflexivity|]. rewrite binom_high by lia. cbn [line]. destruct (Z.eqb_spec (Z.of_nat (S j)) 0); [lia|reflexivity].
  - rewrite line_S2. destruct j as [|j].
    + rewrite (IH 0%nat), !binom_0. rewrite (proj2 (proj2 (proj2 (C123_cone (code_digit 2 26) 1 t _ 0 eq_refl)))) by lia. reflexivity.
    + rewrite (IH (S j)). replace (Z.of_nat (S j) - 1) with (Z.of_nat j) by lia. rewrite IH, binom_S, odd_xor. destruct (Z.odd (binom t j)), (Z.odd (binom t (S j))); reflexivity.
Qed.
Theorem C123_pascal : forall t x y, Z.abs x + Z.abs y = Z.of_nat t -> plane cross5 (code_digit 2 26) 1 t x y = if Z.odd (binom t (Z.to_nat (Z.abs y))) then 1 else 0.
Proof.
  intros t x y Hd. assert (E : plane cross5 (code_digit 2 26) 1 t x y = plane cross5 (code_digit 2 26) 1 t (Z.abs x) (Z.abs y)).
  { pose proof (fun x y => proj1 (proj2 (C123_symmetry (code_digit 2 26) 1 t x y))) as Hs.
    assert (H1 : forall x y, plane cross5 (code_digit 2 26) 1 t (Z.abs x) y = plane cross5 (code_digit 2 26) 1 t x y) by (intros u v; destruct (Z.abs_eq_or_opp u) as [-> | ->]; [reflexivity|apply Hs]).
    rewrite H1, (proj2 (Hs (Z.abs y) x)), H1. symmetry. apply Hs. }
  rewrite E. replace (Z.abs x) with (Z.of_nat t - Z.abs y) by lia. rewrite (proj2 (C123_sides _ 1 t eq_refl)) by lia. rewrite <- line_26, Z2Nat.id by lia. reflexivity.
Qed.
Print Assumptions C123_pascal.
Theorem C123_powers : forall k x y,
  (Z.abs x + Z.abs y = Z.of_nat (2 ^ k - 1) -> plane cross5 (code_digit 2 26) 1 (2 ^ k - 1) x y = 1) /\
  (Z.abs x + Z.abs y = Z.of_nat (2 ^ k) -> (plane cross5 (code_digit 2 26) 1 (2 ^ k) x y = 1 <-> x = 0 \/ y = 0)).
Proof.
  intros k x y. assert (Hp : (0 < 2 ^ k)%nat) by (apply Nat.neq_0_lt_0, Nat.pow_nonzero; lia). split; intros H; rewrite C123_pascal by exact H.
  - rewrite full_row by lia. reflexivity.
  - destruct (Z.eq_dec y 0) as [->|Hy]; [rewrite binom_0; cbn; tauto|]. destruct (Z.eq_dec x 0) as [->|Hx].
    + replace (Z.to_nat (Z.abs y)) with (2 ^ k)%nat by lia. rewrite binom_diag. cbn. tauto.
    + rewrite ends_pow by lia. split; [discriminate|tauto].
Qed.
Print Assumptions C123_powers.

(** ** diagonals of one-dimensional totalistic automata *)
Lemma comes_back_mul h t0 p m : comes_back h t0 p -> comes_back h t0 (m * p).
Proof. intros H. induction m as [|m IH]; intros t Ht; [f_equal; lia|]. replace (t + S m * p)%nat with ((t + m * p) + p)%nat by lia. rewrite H by lia. apply IH, Ht. Qed.
Lemma comes_back_later h t0 t1 p : (t0 <= t1)%nat -> comes_back h t0 p -> comes_back h t1 p.
Proof. intros Hle H t Ht. apply H. lia. Qed.
Lemma driven_back (h : nat -> Z) (F : nat -> Z -> Z) t0 p : (forall t, (t0 <= t)%nat -> h (S t) = F t (h t)) -> (forall t b, (t0 <= t)%nat -> F (t + p)%nat b = F t b) ->
  h (t0 + p)%nat = h t0 -> comes_back h t0 p.
Proof. intros Hf HF H0 t Ht. induction Ht as [|t Ht IH]; [exact H0|]. cbn [Nat.add]. rewrite Hf, HF, IH by lia. symmetry. apply Hf, Ht. Qed.
Lemma pigeon (g : nat -> Z) k : (forall i, 0 <= g i < k) -> exists i j, (i < j <= Z.to_nat k)%nat /\ g i = g j.
Proof.
  intros Hg. set (l := map g (seq 0 (S (Z.to_nat k)))).
  assert (Hn : ~ NoDup l).
  { intros Hnd. assert (Hl : (length l <= length (zrange 0 k))%nat) by (apply NoDup_incl_length; [exact Hnd|]; intros z Hz; apply in_map_iff in Hz; destruct Hz as (i & <- & _); apply in_zrange, Hg).
    unfold l in Hl. rewrite map_length, seq_length, length_zrange in Hl. lia. }
  destruct (duplicate Z.eq_dec l Hn) as (z & l1 & l2 & l3 & E). exists (length l1), (length l1 + S (length l2))%nat.
  assert (Hlen : length l = S (Z.to_nat k)) by (unfold l; rewrite map_length, seq_length; reflexivity).
  assert (Hll : length l = (length l1 + S (length l2 + S (length l3)))%nat) by (rewrite E, app_length; cbn [length]; rewrite app_length; cbn [length]; lia).
  assert (Hnth : forall i, (i < S (Z.to_nat k))%nat -> nth_error l i = Some (g i)).
  { intros i Hi. unfold l. rewrite nth_error_map, (nth_error_nth' _ 0%nat) by (rewrite seq_length; exact Hi). rewrite seq_nth by exact Hi. reflexivity. }
  split; [lia|]. pose proof (Hnth (length l1) ltac:(lia)) as H1. pose proof (Hnth (length l1 + S (length l2))%nat ltac:(lia)) as H2. rewrite E in H1, H2.
  rewrite nth_error_app2, Nat.sub_diag in H1 by lia. rewrite nth_error_app2 in H2 by lia. replace (length l1 + S (length l2) - length l1)%nat with (S (length l2)) in H2 by lia. cbn [nth_error] in H1, H2. rewrite nth_error_app2, Nat.sub_diag in H2 by lia. cbn [nth_error] in H2. congruence.
Qed.

Definition diagonal (f : Z -> Z) (a : Z) (d : Z) (t : nat) : Z := line around3 f a t (d - Z.of_nat t).
Lemma diagonal_S f a d t : diagonal f a d (S t) = f (diagonal f a (d - 2) t + diagonal f a (d - 1) t + diagonal f a d t).
Proof. unfold diagonal. rewrite line_S3. f_equal. f_equal; [f_equal|]; f_equal; lia. Qed.
(** every diagonal, counted from either edge of the triangle, repeats from some time on, with a period of at most k^(d+1) on the d-th for a rule with k colours *)
Theorem C123_diagonals : forall f a k d, f 0 = 0 -> (forall s, 0 <= f s < k) -> 0 <= a < k ->
  exists t0 p, 1 <= Z.of_nat p <= k ^ Z.of_nat (S d) /\ comes_back (fun t => line around3 f a t (Z.of_nat d - Z.of_nat t)) t0 p /\ comes_back (fun t => line around3 f a t (Z.of_nat t - Z.of_nat d)) t0 p.
Proof.
  intros f a k d H0 Hf Ha.
  assert (Hv : forall t x, 0 <= line around3 f a t x < k) by (intros [|t] x; [cbn [line]; destruct (x =? 0); lia|rewrite line_S3; apply Hf]).
  assert (H : forall n, exists t0 p, 1 <= Z.of_nat p <= k ^ Z.of_nat n /\ forall j, j < Z.of_nat n -> comes_back (diagonal f a j) t0 p).
  { induction n as [|n (t0 & p & Hp & IH)].
    - exists 0%nat, 1%nat. split; [change (k ^ Z.of_nat 0) with 1; lia|]. intros j Hj t _. unfold diagonal. rewrite !(fun t x => proj1 (proj2 (proj2 (C123_cone f a t x 0 H0)))) by lia. reflexivity.
    - set (h := diagonal f a (Z.of_nat n)). destruct (pigeon (fun i => h (t0 + i * p)%nat) k) as (i & j & Hij & E); [intros i; apply Hv|].
      exists (t0 + i * p)%nat, ((j - i) * p)%nat. split.
      + rewrite Nat2Z.inj_succ, Z.pow_succ_r by lia. rewrite Nat2Z.inj_mul. split; [nia|]. apply Z.mul_le_mono_nonneg; lia.
      + intros m Hm. assert (Hlow : forall m, m < Z.of_nat n -> comes_back (diagonal f a m) (t0 + i * p) ((j - i) * p)) by (intros m' Hm'; apply (comes_back_later _ t0); [lia|]; apply comes_back_mul, IH; exact Hm').
        destruct (Z.eq_dec m (Z.of_nat n)) as [->|]; [|apply Hlow; lia].
        apply (driven_back h (fun t b => f (diagonal f a (Z.of_nat n - 2) t + diagonal f a (Z.of_nat n - 1) t + b))).
        * intros t _. apply diagonal_S.
        * intros t b Ht. rewrite (Hlow (Z.of_nat n - 2)), (Hlow (Z.of_nat n - 1)) by lia. reflexivity.
        * cbv beta in E. rewrite E. f_equal. nia. }
  destruct (H (S d)) as (t0 & p & Hp & Hd). exists t0, p. split; [exact Hp|]. specialize (Hd (Z.of_nat d) ltac:(lia)). split; [exact Hd|].
  intros t Ht. specialize (Hd t Ht). unfold diagonal in Hd. cbv beta. replace (Z.of_nat (t + p) - Z.of_nat d) with (- (Z.of_nat d - Z.of_nat (t + p))) by lia. replace (Z.of_nat t - Z.of_nat d) with (- (Z.of_nat d - Z.of_nat t)) by lia.
  rewrite !(fun t x => proj2 (proj2 (C123_symmetry f a t x 0))). exact Hd.
Qed.
Print Assumptions C123_diagonals.

(** code 777 with three colours: grey edges, and beside them alternating grey and black *)
Theorem C123_777 : forall t, line around3 (code_digit 3 777) 1 t (Z.of_nat t) = 1 /\ line around3 (code_digit 3 777) 1 (S t) (Z.of_nat t) = if Nat.even t then 1 else 2.
Proof.
  assert (Hc : forall t x, Z.of_nat t < Z.abs x -> line around3 (code_digit 3 777) 1 t x = 0) by (intros t x H; apply (C123_cone (code_digit 3 777) 1 t x 0 eq_refl); exact H).
  intros t. assert (H1 : forall t, line around3 (code_digit 3 777) 1 t (Z.of_nat t) = 1).
  { clear t. induction t as [|t IH]; [reflexivity|]. rewrite line_S3, (Hc t (Z.of_nat (S t))), (Hc t (Z.of_nat (S t) + 1)) by lia. replace (Z.of_nat (S t) - 1) with (Z.of_nat t) by lia. rewrite IH. reflexivity. }
  split; [apply H1|]. induction t as [|t IH]; [reflexivity|]. rewrite line_S3, (Hc (S t) (_ + 1)), H1 by lia. replace (Z.of_nat (S t) - 1) with (Z.of_nat t) by lia. rewrite IH. rewrite Nat.even_succ, <- Nat.negb_even. destruct (Nat.even t); reflexivity.
Qed.
Print Assumptions C123_777.

(** ** the scripts *)
Definition sum_next (f : Z -> Z) (_ _ : Z) (l : list Z) : Z := f (zsum l).
(** the neighbourhoods of cellular_automaton2d and the places they look at *)
Definition hood (h : string) (N : list (Z * Z)) : Prop := h = "Moore" /\ N = square9 \/ h = "von Neumann" /\ N = cross5.
Lemma hood_others h N : hood h N -> exists O, (NoDup O /\ forall dx dy, In (dx, dy) O <-> offset_of h 1 dx dy /\ (dx, dy) <> (0, 0)) /\ Permutation ((0, 0) :: O) N.
Proof.
  intros [[-> ->]|[-> ->]].
  - exists eight. split; [split; [exact NoDup_eight|exact in_eight]|]. exact (Permutation_middle [(-1, -1); (-1, 0); (-1, 1); (0, -1)] [(0, 1); (1, -1); (1, 0); (1, 1)] (0, 0)).
  - exists [(-1, 0); (0, -1); (0, 1); (1, 0)]. split; [|exact (Permutation_middle [(-1, 0); (0, -1)] [(0, 1); (1, 0)] (0, 0))].
    split; [repeat constructor; cbn [In]; intros H; repeat destruct H as [H|H]; try discriminate H; exact H|].
    intros dx dy. unfold offset_of, von_neumann_offset. cbn [String.eqb Ascii.eqb Bool.eqb In]. split.
    + intros H. repeat destruct H as [H|H]; try contradiction; injection H as <- <-; (split; [lia|congruence]).
    + intros [H Hne]. assert (Hx : dx = -1 \/ dx = 0 \/ dx = 1) by lia. assert (Hy : dy = -1 \/ dy = 0 \/ dy = 1) by lia.
      destruct Hx as [->|[-> | ->]], Hy as [->|[-> | ->]]; try lia; tauto || (exfalso; apply Hne; reflexivity).
Qed.

Section Torus.
  Variables (rows cols : Z) (h : string) (N : list (Z * Z)) (nb : Z -> list Z) (a p : Z).
  Hypotheses (Hrows : 3 <= rows) (Hcols : 3 <= cols) (Hh : hood h N).
  Hypothesis Hnd : forall v, 0 <= v < rows * cols -> NoDup (nb v).
  Hypothesis Hub : forall v w, 0 <= v < rows * cols -> In w (nb v) -> 0 <= w < rows * cols.
  Hypothesis Hin : forall a b c d, 0 <= a < rows -> 0 <= b < cols -> 0 <= c < rows -> 0 <= d < cols ->
    (In (c * cols + d) (nb (a * cols + b)) <-> torus_step rows cols (offset_of h 1) a b c d).

  Lemma hood_perm dx dy : Permutation (nb (near rows cols a p dx dy)) (map (fun e => near rows cols a p (dx + fst e) (dy + snd e)) N).
  Proof.
    destruct (hood_others h N Hh) as (O & [HO1 HO2] & Hp). rewrite <- Hp. unfold near. rewrite (torus_perm rows cols 1 h nb O ltac:(lia) ltac:(lia) ltac:(lia) Hnd Hub Hin HO1 HO2) by (apply Z.mod_pos_bound; lia).
    match goal with |- Permutation ?x ?y => replace x with y; [reflexivity|] end. apply map_ext. intros e. rewrite !Zplus_mod_idemp_l, !Z.add_assoc. reflexivity.
  Qed.
  Lemma hood_small e : In e N -> Z.abs (fst e) <= 1 /\ Z.abs (snd e) <= 1.
  Proof. intros He. destruct Hh as [[_ ->]|[_ ->]]; unfold square9, cross5 in He; cbn [In] in He; repeat destruct He as [<-|He]; try contradiction; cbn [fst snd]; lia. Qed.

  Lemma torus_plane f b s : (forall dx dy, Z.abs dx < rows -> Z.abs dy < cols -> s (near rows cols a p dx dy) = if (dx =? 0) && (dy =? 0) then b else 0) ->
    forall t dx dy, Z.abs dx + Z.of_nat t < rows -> Z.abs dy + Z.of_nat t < cols -> ca_state nb (sum_next f) t s (near rows cols a p dx dy) = plane N f b t dx dy.
  Proof.
    intros H0. induction t as [|t IH]; intros dx dy Hx Hy; [apply H0; lia|]. rewrite ca_state_S. unfold ca_next, sum_next. cbn [plane]. f_equal.
    rewrite (zsum_perm _ _ (Permutation_map _ (hood_perm dx dy))), map_map. f_equal. apply map_ext_in. intros e He. apply hood_small in He. apply IH; lia.
  Qed.
  Lemma hood_length dx dy : length (nb (near rows cols a p dx dy)) = length N.
  Proof. rewrite (Permutation_length (hood_perm dx dy)). apply map_length. Qed.
End Torus.

Section Demo.
  Context {U I BA BN : Type} (W : env Z Z Z BA BN).
  Hypothesis Hlab : forall i, e_lab W i = Z.of_nat i.

  (** [hs] are the activities of the states in the trajectory of a two-dimensional script *)
  Definition total_history (rows cols : Z) (h : string) (k code T : Z) (hs : list (dict Z Z)) : Prop :=
    exists fuel (u0 : U) traj, 1 <= T /\ (Z.to_nat T <= fuel)%nat /\ totalistic_2d_demo (I := I) W fuel u0 rows cols h k code T = Ok traj /\ Forall2 (fun s S => activities W s = Ok (Some S)) traj hs.
  Definition valid_code (N : list (Z * Z)) (k code : Z) : Prop := 2 <= k <= 36 /\ 0 <= code < k ^ (Z.of_nat (length N) * (k - 1) + 1).
  Notation spot rows cols := (near rows cols (rows / 2) (cols / 2)).

  Lemma total_run rows cols h N k code T fuel (u0 : U) : 3 <= rows -> 3 <= cols -> hood h N -> valid_code N k code -> 1 <= T -> (Z.to_nat T <= fuel)%nat ->
    exists traj hs, totalistic_2d_demo (I := I) W fuel u0 rows cols h k code T = Ok traj /\ Z.of_nat (length hs) = T /\ Forall2 (fun s S => activities W s = Ok (Some S)) traj hs /\
      forall t S, nth_error hs t = Some S -> forall dx dy, Z.abs dx + Z.of_nat t < rows -> Z.abs dy + Z.of_nat t < cols -> dget S (spot rows cols dx dy) = Some (plane N (code_digit k code) 1 t dx dy).
  Proof.
    intros Hr Hc Hh [Hk Hcode] HT Hf. assert (Hnb' : h = "Moore" \/ h = "von Neumann") by (destruct Hh as [[-> _]|[-> _]]; auto).
    destruct (torus_lattice rows cols 1 h ltac:(lia) ltac:(lia) ltac:(nia) ltac:(lia) Hnb') as (net & nb & En & (Hnd & Hnodes & Hcl & Hlen & Hnb & Hub) & Hfd & Hfin).
    destruct (C64_init_simple2d rows cols 1 ltac:(lia) ltac:(lia)) as (init & Ei & Hil & Hinit). unfold totalistic_2d_demo. rewrite En, Ei. cbn [rbind].
    assert (Hdict : forall v, 0 <= v < rows * cols -> dget (to_dict W (CList init)) v = Some (at0 init v)) by (intros v Hv; cbn [to_dict]; apply (dget_listed (e_lab W)); [exact Hlab|lia]).
    assert (Hcell : forall a b, 0 <= a < rows -> 0 <= b < cols -> at0 init (a * cols + b) = if (a =? rows / 2) && (b =? cols / 2) then 1 else 0) by (intros a b Ha Hb; unfold at0; apply nth_error_nth, Hinit; assumption).
    assert (Hdr : 0 <= rows / 2 < rows) by (split; [apply Z.div_pos; lia|apply Z.div_lt; lia]). assert (Hdc : 0 <= cols / 2 < cols) by (split; [apply Z.div_pos; lia|apply Z.div_lt; lia]).
    assert (Hnear : forall v, 0 <= v < rows * cols -> exists dx dy, v = spot rows cols dx dy).
    { intros v Hv. destruct (cell_surj rows cols v ltac:(lia) Hv) as (Ev & Ha & Hb). unfold cell in Ev. exists (v / cols - rows / 2), (v mod cols - cols / 2). unfold near.
      replace (rows / 2 + (v / cols - rows / 2)) with (v / cols) by lia. replace (cols / 2 + (v mod cols - cols / 2)) with (v mod cols) by lia. rewrite (Z.mod_small (v / cols)), Z.mod_mod by lia. exact Ev. }
    assert (Hseed : forall dx dy, Z.abs dx < rows -> Z.abs dy < cols -> at0 init (spot rows cols dx dy) = if (dx =? 0) && (dy =? 0) then 1 else 0).
    { intros dx dy Hx Hy. unfold near. rewrite Hcell by (apply Z.mod_pos_bound; lia).
      assert (Hz : forall c d m, 0 <= c < m -> Z.abs d < m -> ((c + d) mod m =? c) = (d =? 0)).
      { intros c d m Hc' Hd. destruct (Z.eqb_spec d 0) as [->|Hne]; [rewrite Z.add_0_r, Z.mod_small by lia; apply Z.eqb_refl|]. apply Z.eqb_neq. intros E.
        assert (Hdm := Z.div_mod (c + d) m ltac:(lia)). rewrite E in Hdm. assert (d = m * ((c + d) / m)) by lia. set (q := (c + d) / m) in *. assert (q = 0 \/ q <= -1 \/ 1 <= q) as [Hq|[Hq|Hq]] by lia; nia. }
      rewrite !Hz by assumption. reflexivity. }
    destruct (ca_run W fuel u0 net nb (CList init) T (totalistic_args (I := I) k code) (totalistic_ca k code) (sum_next (code_digit k code)) (fun a => 0 <= a < k) (at0 init)) as (uf & traj & hs & E & Hlh & Hsh & _ & Hkeys & Hs).
    - repeat split.
    - exact Hnd.
    - exact HT.
    - exact Hf.
    - cbn [to_dict]. unfold enumerate. rewrite map_length, combine_length, seq_length. lia.
    - exact Hcl.
    - intros v Hv. apply Hnb, Hnodes, Hv.
    - intros v Hv. apply Hdict, Hnodes, Hv.
    - intros v Hv. apply Hnodes in Hv. destruct (cell_surj rows cols v ltac:(lia) Hv) as (Ev & Ha & Hb). unfold cell in Ev. rewrite Ev, Hcell by assumption. destruct (_ && _); lia.
    - intros x Hx _ Ha Hla. apply Hnodes in Hx. destruct (Hnear _ Hx) as (dx & dy & Ev). rewrite Ev, (hood_length rows cols h N nb (rows / 2) (cols / 2) Hr Hc Hh Hfd Hub Hfin) in Hla.
      destruct (C31_totalistic k code x Hk) as [H1 H2].
      + intros En0. rewrite En0 in Hla. destruct Hh as [[_ ->]|[_ ->]]; discriminate Hla.
      + exact Ha.
      + rewrite Hla. exact Hcode.
      + split; [exact H1|exact H2].
    - exists traj, hs. rewrite E. cbn [rbind]. split; [reflexivity|]. split; [assumption|]. split.
      + clear - Hsh Hs Hr Hc Hnodes. assert (Hne : forall t S, nth_error hs t = Some S -> S <> []).
        { intros t S Ek ->. specialize (Hs t [] Ek 0). rewrite Hnodes in Hs. specialize (Hs ltac:(nia)). discriminate. }
        clear Hs. induction Hsh as [|s S traj hs Es Hf IH]; [constructor|]. constructor; [|apply IH; intros t S' Ek; apply (Hne (Datatypes.S t)); assumption].
        rewrite Es. specialize (Hne 0%nat S eq_refl). destruct S; [contradiction|reflexivity].
      + intros t S Et dx dy Hx Hy. rewrite (Hs t S Et) by (apply Hnodes, near_bound; assumption). f_equal.
        exact (torus_plane rows cols h N nb (rows / 2) (cols / 2) Hr Hc Hh Hfd Hub Hfin (code_digit k code) 1 (at0 init) Hseed t dx dy Hx Hy).
  Qed.

  Theorem C123_runs : forall rows cols h N k code T, 3 <= rows -> 3 <= cols -> hood h N -> valid_code N k code -> 1 <= T -> U -> exists hs, total_history rows cols h k code T hs.
  Proof. intros rows cols h N k code T Hr Hc Hh Hk HT u0. destruct (total_run rows cols h N k code T (Z.to_nat T) u0 Hr Hc Hh Hk HT (le_n _)) as (traj & hs & E & _ & Hs & _). exists hs, (Z.to_nat T), u0, traj. auto. Qed.

  (** the cells that information from round the torus has not reached are those of the plane; while 2t is less than both sides these are all cells *)
  Theorem C123_torus : forall rows cols h N k code T hs t S, 3 <= rows -> 3 <= cols -> hood h N -> valid_code N k code -> total_history rows cols h k code T hs -> nth_error hs t = Some S ->
    Z.of_nat (length hs) = T /\
    (forall dx dy, Z.abs dx + Z.of_nat t < rows -> Z.abs dy + Z.of_nat t < cols -> dget S (spot rows cols dx dy) = Some (plane N (code_digit k code) 1 t dx dy)) /\
    (2 * Z.of_nat t < rows -> 2 * Z.of_nat t < cols -> forall a b, 0 <= a < rows -> 0 <= b < cols -> dget S (a * cols + b) = Some (plane N (code_digit k code) 1 t (a - rows / 2) (b - cols / 2))).
  Proof.
    intros rows cols h N k code T hs t S Hr Hc Hh Hk (fuel & u0 & traj & HT & Hf & E & Hs) Et.
    destruct (total_run rows cols h N k code T fuel u0 Hr Hc Hh Hk HT Hf) as (traj' & hs' & E' & Hlen & Hs' & H). assert (traj' = traj) by congruence. subst traj'.
    assert (hs' = hs) by (clear - Hs Hs'; revert hs' Hs'; induction Hs as [|s S traj hs Es _ IH]; intros hs' Hs'; inversion Hs'; subst; [reflexivity|]; f_equal; [congruence|auto]).
    subst hs'. split; [exact Hlen|]. split; [exact (H t S Et)|]. intros Ht1 Ht2 a b Ha Hb.
    pose proof (Z.div_mod rows 2 ltac:(lia)). pose proof (Z.mod_pos_bound rows 2 ltac:(lia)). pose proof (Z.div_mod cols 2 ltac:(lia)). pose proof (Z.mod_pos_bound cols 2 ltac:(lia)).
    rewrite <- (H t S Et) by lia. f_equal. unfold near. replace (rows / 2 + (a - rows / 2)) with a by lia. replace (cols / 2 + (b - cols / 2)) with b by lia. rewrite !Z.mod_small by assumption. reflexivity.
  Qed.

  (** totalistic_2d_demo.py and animation_demo.py: all 30 states are those of the plane; the t-th shows a square with a black border, and a diamond with a border from Pascal's triangle *)
  Theorem C123_square_script : forall T hs t S a b, total_history 60 60 "Moore" 2 126 T hs -> nth_error hs t = Some S -> (t < 30)%nat -> 0 <= a < 60 -> 0 <= b < 60 ->
    (Z.max (Z.abs (a - 30)) (Z.abs (b - 30)) = Z.of_nat t -> dget S (a * 60 + b) = Some 1) /\ (Z.of_nat t < Z.max (Z.abs (a - 30)) (Z.abs (b - 30)) -> dget S (a * 60 + b) = Some 0).
  Proof.
    intros T hs t S a b Hh Et Ht Ha Hb. destruct (C123_torus 60 60 "Moore" square9 2 126 T hs t S ltac:(lia) ltac:(lia) ltac:(left; auto) ltac:(split; [lia|cbn; lia]) Hh Et) as (_ & _ & H).
    rewrite (H ltac:(lia) ltac:(lia) a b Ha Hb). change (60 / 2) with 30. split; intros Hm; f_equal; [apply C123_border, Hm|]. apply (C123_cone (code_digit 2 126) 1 t _ _ eq_refl). exact Hm.
  Qed.
  Theorem C123_diamond_script : forall T hs t S a b, total_history 60 60 "von Neumann" 2 26 T hs -> nth_error hs t = Some S -> (t < 30)%nat -> 0 <= a < 60 -> 0 <= b < 60 ->
    (Z.abs (a - 30) + Z.abs (b - 30) = Z.of_nat t -> dget S (a * 60 + b) = Some (if Z.odd (binom t (Z.to_nat (Z.abs (b - 30)))) then 1 else 0)) /\ (Z.of_nat t < Z.abs (a - 30) + Z.abs (b - 30) -> dget S (a * 60 + b) = Some 0).
  Proof.
    intros T hs t S a b Hh Et Ht Ha Hb. destruct (C123_torus 60 60 "von Neumann" cross5 2 26 T hs t S ltac:(lia) ltac:(lia) ltac:(right; auto) ltac:(split; [lia|cbn; lia]) Hh Et) as (_ & _ & H).
    rewrite (H ltac:(lia) ltac:(lia) a b Ha Hb). change (60 / 2) with 30. split; intros Hm; f_equal; [apply C123_pascal, Hm|]. apply (C123_cone (code_digit 2 26) 1 t _ _ eq_refl). exact Hm.
  Qed.

  (** *** totalistic_ca_demo.py *)
  Lemma ring_line n p f b s : 3 <= n -> 0 <= p < n -> (forall v, 0 <= v < n -> s v = if v =? p then b else 0) ->
    forall t z, Z.abs z + Z.of_nat t < n -> ca_state (ring_nb n 1) (sum_next f) t s ((p + z) mod n) = line around3 f b t z.
  Proof.
    intros Hn Hp H0. induction t as [|t IH]; intros z Hz.
    - cbn [ca_state line]. rewrite H0 by (apply Z.mod_pos_bound; lia). destruct (Z.eqb_spec z 0) as [->|Hne]; [rewrite Z.add_0_r, Z.mod_small, Z.eqb_refl by lia; reflexivity|]. destruct (Z.eqb_spec ((p + z) mod n) p) as [E|]; [|reflexivity]. exfalso.
      assert (Hdm := Z.div_mod (p + z) n ltac:(lia)). rewrite E in Hdm. set (q := (p + z) / n) in *. assert (q = 0 \/ q <= -1 \/ 1 <= q) as [Hq|[Hq|Hq]] by lia; nia.
    - rewrite ca_state_S. unfold ca_next, sum_next. cbn [line]. f_equal. unfold ring_nb. change (zrange (- (1)) (1 + 1)) with around3. rewrite map_map. f_equal. apply map_ext_in. intros e He.
      assert (Z.abs e <= 1) by (unfold around3 in He; cbn [In] in He; repeat destruct He as [<-|He]; try contradiction; lia). rewrite Zplus_mod_idemp_l, <- Z.add_assoc. apply IH. lia.
  Qed.

  (** the rows of the plot are those of the line, until the triangle reaches both ends; in the script T is 100, with 100 cells to the left and 99 to the right *)
  Theorem C123_line_script : forall fuel (u0 : U) k code p q T, (3 <= p + 1 + q)%nat -> 2 <= k <= 36 -> 0 <= code < k ^ (3 * (k - 1) + 1) -> 1 <= T -> (Z.to_nat T <= fuel)%nat ->
    T <= Z.of_nat p + 1 -> T <= Z.of_nat q + 1 ->
    totalistic_ca_demo (I := I) W fuel u0 k code p q T = Ok (map (fun t => map (fun v => line around3 (code_digit k code) 1 t (v - Z.of_nat p)) (zrange 0 (Z.of_nat (p + 1 + q)))) (seq 0 (Z.to_nat T))).
  Proof.
    intros fuel u0 k code p q T Hpq Hk Hcode HT Hf Hp Hq. set (n := Z.of_nat (p + 1 + q)). assert (Hn : 3 <= n) by lia. set (init := repeat 0 p ++ [1] ++ repeat 0 q).
    assert (Hli : Z.of_nat (length init) = n) by (unfold init, n; rewrite !app_length, !repeat_length; cbn [length]; lia).
    assert (Hcell : forall v, 0 <= v < n -> nth_error init (Z.to_nat v) = Some (start30 p v)).
    { intros v Hv. unfold start30, init. destruct (Z.eqb_spec v (Z.of_nat p)) as [->|Hne].
      - rewrite Nat2Z.id, nth_error_app2, repeat_length, Nat.sub_diag by (rewrite repeat_length; lia). reflexivity.
      - destruct (Z.ltb_spec v (Z.of_nat p)).
        + rewrite nth_error_app1 by (rewrite repeat_length; lia). apply nth_error_repeat. lia.
        + rewrite nth_error_app2 by (rewrite repeat_length; lia). rewrite repeat_length, nth_error_app2 by (cbn; lia). apply nth_error_repeat. cbn [length]. unfold n in Hv. lia. }
    destruct (ring_lattice n 1 Hn ltac:(lia) ltac:(lia)) as (net & E & Hlat). pose proof Hlat as (Hnd & Hnodes & Hcl & Hlen & Hnb & Hub).
    pose proof (shows_list W init Hlab) as (S1 & S2 & S3). rewrite Hli in S2, S3.
    destruct (ca_run (I := I) W fuel u0 net (ring_nb n 1) (CList init) T (totalistic_args k code) (totalistic_ca k code) (sum_next (code_digit k code)) (fun a => 0 <= a < k) (start30 p)) as (uf & traj & hs & Ev & Hl & Hshow & Hz & Hkeys & Hk').
    - repeat split; reflexivity.
    - exact Hnd.
    - exact HT.
    - exact Hf.
    - cbn [to_dict]. unfold enumerate. rewrite map_length, combine_length, seq_length. lia.
    - exact Hcl.
    - intros v Hv. apply Hnb, Hnodes, Hv.
    - intros v Hv. apply Hnodes in Hv. rewrite S3 by exact Hv. apply Hcell, Hv.
    - intros v _. unfold start30. destruct (v =? Z.of_nat p); lia.
    - intros x Hx _ Ha Hla. rewrite length_ring_nb in Hla by lia. destruct (C31_totalistic k code x Hk) as [H1 H2].
      + intros En0. rewrite En0 in Hla. discriminate Hla.
      + exact Ha.
      + rewrite Hla. exact Hcode.
      + split; [exact H1|exact H2].
    - unfold totalistic_ca_demo. fold n. rewrite E. cbn [rbind]. cbv zeta. fold init. rewrite Ev. cbn [rbind].
      rewrite (read_rows W traj hs n (fun t => ca_state (ring_nb n 1) (sum_next (code_digit k code)) t (start30 p)) ltac:(lia) Hshow).
      + f_equal. unfold rows, row. replace (length hs) with (Z.to_nat T) by lia. apply map_ext_in. intros t Ht. apply in_seq in Ht. apply map_ext_in. intros v Hv. apply in_zrange in Hv.
        rewrite <- (ring_line n (Z.of_nat p) (code_digit k code) 1 (start30 p) Hn ltac:(lia) (fun v _ => eq_refl) t (v - Z.of_nat p) ltac:(lia)). f_equal. symmetry. replace (Z.of_nat p + (v - Z.of_nat p)) with v by lia. apply Z.mod_small, Hv.
      + intros [|t] S Ek; [rewrite Hz in Ek; injection Ek as <-; split; assumption|]. unfold dkeys. rewrite (Hkeys t S Ek). split; assumption.
      + intros t S v Ek Hv. apply (Hk' t S Ek v). apply Hnodes, Hv.
  Qed.
End Demo.
Print Assumptions C123_runs.
Print Assumptions C123_torus.
Print Assumptions C123_square_script.
Print Assumptions C123_diamond_script.
Print Assumptions C123_line_script.

(** the codes of the scripts are valid, and what they do with the sums *)
Example C123_example : valid_code square9 2 126 /\ valid_code cross5 2 26 /\ 0 <= 777 < 3 ^ (3 * (3 - 1) + 1) /\ hood "Moore" square9 /\ hood "von Neumann" cross5 /\
  map (code_digit 2 126) (zrange 0 10) = [0; 1; 1; 1; 1; 1; 1; 0; 0; 0] /\ map (code_digit 2 26) (zrange 0 6) = [0; 1; 0; 1; 1; 0] /\ map (code_digit 3 777) (zrange 0 7) = [0; 1; 2; 1; 0; 0; 1] /\
  map (line around3 (code_digit 3 777) 1 3) (zrange (-4) 5) = [0; 1; 1; 0; 0; 0; 1; 1; 0].
Proof. unfold valid_code, hood. cbn [length square9 cross5]. split; [split; [lia|vm_compute; split; [discriminate|reflexivity]]|]. split; [split; [lia|vm_compute; split; [discriminate|reflexivity]]|]. split; [vm_compute; split; [discriminate|reflexivity]|]. split; [auto|]. split; [auto|]. repeat split; vm_compute; reflexivity. Qed.

(** * C118: rule 30 *)
From Verif Require Import Py PyFacts ListFacts Network Topology TopologySpec TopologyProofs TopologyProofs2 TopologyProofs3 TopologyProofs4 TopologyProofs5 Evolve EvolveSpec EvolveProofs EvolveProofs2 EvolveStatic Rules RulesSpec RulesProofs Utils TuringSpec TuringProofs2 PropTuring.
From Verif Require Import CaSpec CaRun CaNets EcaSpec EcaProofs PropRules PropCa PropEca RevSpec PropReversible PropEvolve Rule30Spec Elementary.
Open Scope string_scope.
Open Scope list_scope.
Open Scope Z_scope.

(** ** the line *)
Lemma world_cone t x : Z.of_nat t < Z.abs x -> world30 t x = false.
Proof.
  revert x. induction t as [|t IH]; intros x Hx; cbn [world30]; [destruct (Z.eqb_spec x 0); [lia|reflexivity]|]. rewrite !IH by lia. reflexivity.
Qed.

(** both edges of the triangle are black *)
Theorem C118_edges : forall t x, (Z.of_nat t < Z.abs x -> world30 t x = false) /\ (Z.of_nat t = Z.abs x -> world30 t x = true).
Proof.
  intros t. induction t as [|t IH]; intros x; (split; [apply world_cone|]); intros Hx.
  - cbn [world30]. destruct (Z.eqb_spec x 0); [reflexivity|lia].
  - cbn [world30]. destruct (Z.leb_spec x 0) as [Hle|Hgt].
    + rewrite (world_cone t (x - 1)), (world_cone t x) by lia. rewrite (proj2 (IH (x + 1))) by lia. reflexivity.
    + rewrite (world_cone t (x + 1)), (world_cone t x) by lia. rewrite (proj2 (IH (x - 1))) by lia. reflexivity.
Qed.

(** *** repeating *)
Lemma repeats_later f t0 t1 p : (t0 <= t1)%nat -> repeats f t0 p -> repeats f t1 p.
Proof. intros Hle H t Ht. apply H. lia. Qed.
Lemma repeats_mul f t0 p m : repeats f t0 p -> repeats f t0 (m * p).
Proof.
  intros H. induction m as [|m IH]; intros t Ht; [f_equal; lia|]. replace (t + S m * p)%nat with ((t + m * p) + p)%nat by lia. rewrite H by lia. apply IH, Ht.
Qed.
Lemma repeats_ext f f' t0 p : (forall t, (t0 <= t)%nat -> f t = f' t) -> repeats f t0 p -> repeats f' t0 p.
Proof. intros E H t Ht. rewrite <- !E by lia. apply H, Ht. Qed.

(** a sequence that is driven by a repeating function, at a time where it comes back *)
Lemma driven_repeats (f : nat -> bool) (F : nat -> bool -> bool) t0 p : (forall t, (t0 <= t)%nat -> f (S t) = F t (f t)) -> (forall t b, (t0 <= t)%nat -> F (t + p)%nat b = F t b) ->
  f (t0 + p)%nat = f t0 -> repeats f t0 p.
Proof.
  intros Hf HF H0 t Ht. induction Ht as [|t Ht IH]; [exact H0|]. cbn [Nat.add]. rewrite Hf, HF, IH by lia. symmetry. apply Hf, Ht.
Qed.

Fixpoint sum_from (g : nat -> bool) (t n : nat) : bool := match n with O => false | S n => xorb (g (t + n)%nat) (sum_from g t n) end.
Lemma sum_head g t n : sum_from g t (S n) = xorb (g t) (sum_from g (S t) n).
Proof.
  induction n as [|n IH]; [cbn; rewrite Nat.add_0_r; reflexivity|]. change (sum_from g t (S (S n))) with (xorb (g (t + S n)%nat) (sum_from g t (S n))). rewrite IH. cbn [sum_from].
  replace (t + S n)%nat with (S t + n)%nat by lia. destruct (g (S t + n)%nat), (g t), (sum_from g (S t) n); reflexivity.
Qed.
Lemma sum_shift g p t : repeats g 0 p -> sum_from g (S t) p = sum_from g t p.
Proof.
  intros H. destruct p as [|p]; [reflexivity|]. rewrite (sum_head g t p). change (sum_from g (S t) (S p)) with (xorb (g (S t + p)%nat) (sum_from g (S t) p)).
  replace (S t + p)%nat with (t + S p)%nat by lia. rewrite H by lia. reflexivity.
Qed.
Lemma sum_const g p t : repeats g 0 p -> sum_from g t p = sum_from g 0 p.
Proof. intros H. induction t as [|t IH]; [reflexivity|]. rewrite sum_shift by exact H. exact IH. Qed.
Lemma sums_up f g t n : (forall t, f (S t) = xorb (f t) (g t)) -> f (t + n)%nat = xorb (f t) (sum_from g t n).
Proof.
  intros H. induction n as [|n IH]; [rewrite Nat.add_0_r; cbn; destruct (f t); reflexivity|]. rewrite Nat.add_succ_r, H, IH. cbn [sum_from]. destruct (f t), (g (t + n)%nat), (sum_from g t n); reflexivity.
Qed.
Lemma doubles f g p : (forall t, f (S t) = xorb (f t) (g t)) -> repeats g 0 p -> repeats f 0 (2 * p).
Proof.
  intros Hf Hg t _. replace (t + 2 * p)%nat with ((t + p) + p)%nat by lia. rewrite (sums_up f g (t + p) p Hf), (sums_up f g t p Hf), (sum_const g p (t + p) Hg), (sum_const g p t Hg). destruct (f t), (sum_from g 0 p); reflexivity.
Qed.

(** *** the diagonals along the right edge repeat from the start, with a period that is a power of two *)
Lemma right_step k t : right_diagonal (S (S k)) (S t) = xorb (right_diagonal (S (S k)) t) (right_diagonal (S k) t || right_diagonal k t).
Proof. unfold right_diagonal. cbn [world30]. apply f_equal2; [|apply f_equal2]; apply f_equal; lia. Qed.
Lemma right_0 t : right_diagonal 0 t = true.
Proof. apply C118_edges. lia. Qed.
Lemma right_1 t : right_diagonal 1 (S t) = xorb (right_diagonal 1 t) true.
Proof.
  unfold right_diagonal. cbn [world30]. rewrite (world_cone t (_ + 1)) by lia. rewrite orb_false_r. apply f_equal2; [apply f_equal; lia|]. apply C118_edges. lia.
Qed.
Theorem C118_right_diagonals : forall k, repeats (right_diagonal k) 0 (2 ^ k).
Proof.
  assert (H : forall k, repeats (right_diagonal k) 0 (2 ^ k) /\ repeats (right_diagonal (S k)) 0 (2 ^ S k)).
  { induction k as [|k [IH1 IH2]].
    - split; [intros t _; rewrite !right_0; reflexivity|]. apply (doubles _ (fun _ => true) 1 right_1). intros t _. reflexivity.
    - split; [exact IH2|]. apply (doubles _ _ (2 ^ S k) (right_step k)). intros t Ht. rewrite IH2 by lia. rewrite Nat.pow_succ_r' at 1. rewrite (repeats_mul _ _ _ 2 IH1) by lia. reflexivity. }
  intros k. apply H.
Qed.
Print Assumptions C118_edges.
Print Assumptions C118_right_diagonals.

(** *** those along the left edge repeat after some time, with a period that is a power of two *)
Lemma left_step k t : left_diagonal (S (S k)) (S t) = xorb (left_diagonal k t) (left_diagonal (S k) t || left_diagonal (S (S k)) t).
Proof. unfold left_diagonal. cbn [world30]. apply f_equal2; [|apply f_equal2]; apply f_equal; lia. Qed.
Lemma left_0 t : left_diagonal 0 t = true.
Proof. apply C118_edges. lia. Qed.
Lemma left_1 t : left_diagonal 1 (S t) = true.
Proof.
  unfold left_diagonal. cbn [world30]. rewrite (world_cone t (_ - 1)) by lia. rewrite (proj2 (C118_edges t (Z.of_nat 1 - Z.of_nat (S t)))) by lia. reflexivity.
Qed.

Fixpoint drive (F : nat -> bool -> bool) (t n : nat) (b : bool) : bool := match n with O => b | S n => F (t + n)%nat (drive F t n b) end.
Lemma drive_run f F t0 t n : (t0 <= t)%nat -> (forall t, (t0 <= t)%nat -> f (S t) = F t (f t)) -> f (t + n)%nat = drive F t n (f t).
Proof. intros Ht H. induction n as [|n IH]; [rewrite Nat.add_0_r; reflexivity|]. rewrite Nat.add_succ_r, H, IH by lia. reflexivity. Qed.
Lemma drive_shift F t0 p t n b : (t0 <= t)%nat -> (forall t b, (t0 <= t)%nat -> F (t + p)%nat b = F t b) -> drive F (t + p) n b = drive F t n b.
Proof. intros Ht H. induction n as [|n IH]; [reflexivity|]. cbn [drive]. rewrite IH. replace (t + p + n)%nat with (t + n + p)%nat by lia. apply H. lia. Qed.
Lemma thrice (g : bool -> bool) b : g (g (g b)) = g b.
Proof. destruct b, (g true) eqn:E1, (g false) eqn:E2; rewrite ?E1, ?E2, ?E1, ?E2; reflexivity. Qed.
Lemma settles f F t0 p : (forall t, (t0 <= t)%nat -> f (S t) = F t (f t)) -> (forall t b, (t0 <= t)%nat -> F (t + p)%nat b = F t b) -> repeats f (t0 + p) (2 * p).
Proof.
  intros Hf HF. apply (driven_repeats f F).
  - intros t Ht. apply Hf. lia.
  - intros t b Ht. replace (t + 2 * p)%nat with (t + p + p)%nat by lia. rewrite !HF by lia. reflexivity.
  - assert (Hg : forall t, (exists m, t = (t0 + m * p)%nat) -> f (t + p)%nat = drive F t0 p (f t)).
    { intros t [m ->]. rewrite (drive_run f F t0 _ p) by (try exact Hf; lia). induction m as [|m IH]; [do 2 f_equal; lia|].
      clear IH. assert (E : forall m b, drive F (t0 + m * p) p b = drive F t0 p b).
      { clear m. induction m as [|m IH]; intros b; [f_equal; lia|]. replace (t0 + S m * p)%nat with (t0 + m * p + p)%nat by lia. rewrite (drive_shift F t0) by (try exact HF; lia). apply IH. }
      apply E. }
    replace (t0 + p + 2 * p)%nat with (((t0 + p) + p) + p)%nat by lia. rewrite (Hg (t0 + p + p)%nat) by (exists 2%nat; lia). rewrite (Hg (t0 + p)%nat) by (exists 1%nat; lia).
    rewrite (Hg t0) by (exists 0%nat; lia). apply thrice.
Qed.
Theorem C118_left_diagonals : forall k, exists t0, repeats (left_diagonal k) t0 (2 ^ k).
Proof.
  assert (H : forall k, exists t0, repeats (left_diagonal k) t0 (2 ^ k) /\ repeats (left_diagonal (S k)) t0 (2 ^ S k)).
  { induction k as [|k (t0 & IH1 & IH2)].
    - exists 1%nat. split; [intros t _; rewrite !left_0; reflexivity|]. intros t Ht. destruct t as [|t]; [lia|]. cbn [Nat.add]. rewrite !left_1. reflexivity.
    - exists (t0 + 2 ^ S k)%nat. split; [apply (repeats_later _ t0); [lia|exact IH2]|].
      apply (settles _ (fun t b => xorb (left_diagonal k t) (left_diagonal (S k) t || b)) t0 (2 ^ S k)); [intros t _; apply left_step|].
      intros t b Ht. cbv beta. rewrite IH2 by lia. rewrite Nat.pow_succ_r' at 1. rewrite (repeats_mul _ _ _ 2 IH1) by lia. reflexivity. }
  intros k. destruct (H k) as (t0 & H0 & _). exists t0. exact H0.
Qed.
Print Assumptions C118_left_diagonals.

(** *** no two columns repeat *)
Lemma column_left x t : column (x - 1) t = xorb (column x (S t)) (column x t || column (x + 1) t).
Proof. unfold column. cbn [world30]. destruct (world30 t (x - 1)), (world30 t x || world30 t (x + 1)); reflexivity. Qed.
Lemma columns_left x t0 p j : repeats (column x) t0 p -> repeats (column (x + 1)) t0 p -> repeats (column (x - Z.of_nat j)) t0 p /\ repeats (column (x - Z.of_nat j + 1)) t0 p.
Proof.
  intros H0 H1. induction j as [|j [IH0 IH1]]; [replace (x - Z.of_nat 0) with x by lia; auto|]. replace (x - Z.of_nat (S j) + 1) with (x - Z.of_nat j) by lia. split; [|exact IH0].
  replace (x - Z.of_nat (S j)) with (x - Z.of_nat j - 1) by lia. intros t Ht. rewrite !column_left. rewrite (IH0 t Ht), (IH1 t Ht). f_equal. apply (IH0 (S t)). lia.
Qed.
Lemma no_adjacent x t0 p : (1 <= p)%nat -> repeats (column x) t0 p -> repeats (column (x + 1)) t0 p -> False.
Proof.
  intros Hp H0 H1. set (j := (Z.to_nat (Z.abs x) + t0 + p)%nat). destruct (columns_left x t0 p j H0 H1) as [H _]. unfold column in H.
  set (m := Z.to_nat (Z.abs (x - Z.of_nat j))). assert (Hm : (t0 + p <= m)%nat) by (unfold m, j; lia).
  specialize (H (m - p)%nat ltac:(lia)). replace (m - p + p)%nat with m in H by lia. rewrite (proj2 (C118_edges m _)) in H by (unfold m; lia). rewrite world_cone in H by (unfold m; lia). discriminate.
Qed.

(** a strip between two repeating columns *)
Lemma duplicate {X} (dec : forall a b : X, {a = b} + {a <> b}) (l : list X) : ~ NoDup l -> exists a l1 l2 l3, l = l1 ++ a :: l2 ++ a :: l3.
Proof.
  induction l as [|a l IH]; intros Hn; [exfalso; apply Hn; constructor|]. destruct (in_dec dec a l) as [Hi|Hi].
  - apply in_split in Hi. destruct Hi as (l2 & l3 & ->). exists a, [], l2, l3. reflexivity.
  - destruct IH as (b & l1 & l2 & l3 & ->); [intros Hnd; apply Hn; constructor; assumption|]. exists b, (a :: l1), l2, l3. reflexivity.
Qed.
Definition strip (x : Z) (w : nat) (t : nat) : list bool := map (fun i => column (x + 1 + Z.of_nat i) t) (seq 0 w).
Fixpoint all_strips (w : nat) : list (list bool) := match w with O => [[]] | S w => map (cons true) (all_strips w) ++ map (cons false) (all_strips w) end.
Lemma in_all_strips l : In l (all_strips (length l)).
Proof. induction l as [|b l IH]; cbn; [auto|]. apply in_or_app. destruct b; [left|right]; apply in_map; exact IH. Qed.
Lemma strip_next x w t t' : column x t = column x t' -> column (x + 1 + Z.of_nat w) t = column (x + 1 + Z.of_nat w) t' -> strip x w t = strip x w t' -> strip x w (S t) = strip x w (S t').
Proof.
  intros Hl Hr Hs. assert (Hc : forall i, (i < w)%nat -> column (x + 1 + Z.of_nat i) t = column (x + 1 + Z.of_nat i) t').
  { intros i Hi. assert (E : nth_error (strip x w t) i = nth_error (strip x w t') i) by (rewrite Hs; reflexivity). unfold strip in E.
    rewrite !nth_error_map, (nth_error_nth' _ 0%nat), seq_nth in E by (rewrite ?seq_length; exact Hi). cbn [option_map Nat.add] in E. injection E as E. exact E. }
  apply map_ext_in. intros i Hi. apply in_seq in Hi. unfold column in *. cbn [world30]. f_equal; [|f_equal].
  - destruct i as [|i]; [replace (x + 1 + Z.of_nat 0 - 1) with x by lia; exact Hl|]. replace (x + 1 + Z.of_nat (S i) - 1) with (x + 1 + Z.of_nat i) by lia. apply Hc. lia.
  - apply Hc. lia.
  - replace (x + 1 + Z.of_nat i + 1) with (x + 1 + Z.of_nat (S i)) by lia. destruct (Nat.eq_dec (S i) w) as [<- | Hne]; [exact Hr|apply Hc; lia].
Qed.
Lemma strip_repeats x w t0 p : repeats (column x) t0 p -> repeats (column (x + 1 + Z.of_nat w)) t0 p -> (1 <= p)%nat ->
  exists t1 q, (t0 <= t1)%nat /\ (1 <= q)%nat /\ repeats (column x) t1 q /\ forall t, (t1 <= t)%nat -> strip x w (t + q) = strip x w t.
Proof.
  intros H0 H1 Hp. set (l := map (fun m => strip x w (t0 + m * p)) (seq 0 (S (length (all_strips w))))).
  assert (Hdup : exists m1 m2, (m1 < m2)%nat /\ strip x w (t0 + m1 * p) = strip x w (t0 + m2 * p)).
  { assert (Hn : ~ NoDup l).
    { intros Hnd. assert (Hincl : incl l (all_strips w)).
      { intros y Hy. apply in_map_iff in Hy. destruct Hy as (m & <- & _). replace w with (length (strip x w (t0 + m * p))) at 2 by (unfold strip; rewrite map_length, seq_length; reflexivity). apply in_all_strips. }
      pose proof (NoDup_incl_length Hnd Hincl) as Hlen. unfold l in Hlen. rewrite map_length, seq_length in Hlen. lia. }
    apply (duplicate (list_eq_dec Bool.bool_dec)) in Hn.
    destruct Hn as (a & l1 & l2 & l3 & El). exists (length l1), (length l1 + S (length l2))%nat. split; [lia|].
    assert (G : forall i, nth_error l i = Some a -> strip x w (t0 + i * p) = a).
    { intros i Ei. assert (Hi : (i < length l)%nat) by (apply nth_error_Some; congruence). unfold l in Ei, Hi. rewrite map_length, seq_length in Hi. rewrite nth_error_map, (nth_error_nth' _ 0%nat), seq_nth in Ei by (rewrite ?seq_length; exact Hi). cbn in Ei. injection Ei as Ei. exact Ei. }
    rewrite (G (length l1)), (G (length l1 + S (length l2))%nat); [reflexivity| |].
    - rewrite El, nth_error_app2 by lia. replace (length l1 + S (length l2) - length l1)%nat with (S (length l2)) by lia. cbn [nth_error]. rewrite nth_error_app2, Nat.sub_diag by lia. reflexivity.
    - rewrite El, nth_error_app2, Nat.sub_diag by lia. reflexivity. }
  destruct Hdup as (m1 & m2 & Hlt & E). exists (t0 + m1 * p)%nat, ((m2 - m1) * p)%nat. split; [lia|]. split; [nia|].
  pose proof (repeats_later _ t0 (t0 + m1 * p) _ ltac:(lia) (repeats_mul _ _ _ (m2 - m1) H0)) as R0. pose proof (repeats_later _ t0 (t0 + m1 * p) _ ltac:(lia) (repeats_mul _ _ _ (m2 - m1) H1)) as R1.
  split; [exact R0|]. intros t Ht. induction Ht as [|t Ht IH].
  - rewrite E. f_equal. nia.
  - cbn [Nat.add]. apply strip_next; [apply R0, Ht|apply R1, Ht|exact IH].
Qed.
Theorem C118_columns : forall x y, x <> y -> ev_periodic (column x) -> ev_periodic (column y) -> False.
Proof.
  assert (H : forall x y, x < y -> ev_periodic (column x) -> ev_periodic (column y) -> False).
  { intros x y Hxy (t0 & p & Hp & Hx) (t1 & q & Hq & Hy).
    pose proof (repeats_later _ t0 (Nat.max t0 t1) _ ltac:(lia) (repeats_mul _ _ _ q Hx)) as Rx. pose proof (repeats_later _ t1 (Nat.max t0 t1) _ ltac:(lia) (repeats_mul _ _ _ p Hy)) as Ry.
    rewrite (Nat.mul_comm q p) in Rx. destruct (Z.eq_dec y (x + 1)) as [-> | Hne]; [apply (no_adjacent x (Nat.max t0 t1) (p * q)); [nia|exact Rx|exact Ry]|].
    set (w := Z.to_nat (y - x - 1)). replace y with (x + 1 + Z.of_nat w) in Ry by (unfold w; lia). destruct (strip_repeats x w _ _ Rx Ry ltac:(nia)) as (t2 & r & _ & Hr & R0 & Rs).
    apply (no_adjacent x t2 r Hr R0). intros t Ht. specialize (Rs t Ht). unfold strip in Rs. destruct w as [|w'] eqn:Ew; [unfold w in Ew; lia|]. cbn [seq map] in Rs. injection Rs as Rs _.
    rewrite Z.add_0_r in Rs. exact Rs. }
  intros x y Hne Hx Hy. destruct (Z.lt_total x y) as [Hlt|[He|Hgt]]; [eauto|contradiction|eauto].
Qed.
Print Assumptions C118_columns.

(** ** the scripts *)
Lemma eca30 v a x y z : bit x -> bit y -> bit z -> eca 30 v a [x; y; z] = Z.b2z (xorb (x =? 1) ((y =? 1) || (z =? 1))).
Proof. intros [-> | ->] [-> | ->] [-> | ->]; reflexivity. Qed.

(** the row of the ring that shows the line: the black cell of the start is cell [p] *)
Definition row30 (p : nat) (t : nat) (v : Z) : Z := Z.b2z (world30 t (v - Z.of_nat p)).
Definition start30 (p : nat) (v : Z) : Z := if v =? Z.of_nat p then 1 else 0.

Lemma ring_shows p q t v : (t <= p)%nat -> (t <= q)%nat -> let n := Z.of_nat (p + 1 + q) in 3 <= n -> 0 <= v < n -> ca_state (ring_nb n 1) (eca 30) t (start30 p) v = row30 p t v.
Proof.
  intros Hp Hq n Hn. revert v. induction t as [|t IH]; intros v Hv.
  - change (start30 p v = row30 p 0 v). unfold row30, start30. cbn [world30]. destruct (Z.eqb_spec v (Z.of_nat p)), (Z.eqb_spec (v - Z.of_nat p) 0); try lia; reflexivity.
  - specialize (IH ltac:(lia) ltac:(lia)). rewrite ca_state_S. unfold ca_next, ring_nb. change (zrange (- (1)) (1 + 1)) with [-1; 0; 1]. cbn [map].
    assert (Hb : forall w, bit (row30 p t w)) by (intros w; unfold row30, bit; destruct (world30 t _); auto).
    rewrite !IH by (first [exact Hv|apply Z.mod_pos_bound; lia]). rewrite eca30 by apply Hb. unfold row30. cbn [world30].
    assert (E1 : forall b, (Z.b2z b =? 1) = b) by (intros []; reflexivity). rewrite !E1. f_equal.
    assert (Hout : forall w, w = -1 \/ w = n -> world30 t (w - Z.of_nat p) = false) by (intros w Hw; apply world_cone; unfold n in *; lia).
    assert (Hedge : world30 t (n - 1 - Z.of_nat p) = false /\ world30 t (0 - Z.of_nat p) = false) by (split; apply world_cone; unfold n; lia).
    replace ((v + 0) mod n) with v by (rewrite Z.add_0_r, Z.mod_small; lia). replace (v - Z.of_nat p - 1) with (v + -1 - Z.of_nat p) by lia. replace (v - Z.of_nat p + 1) with (v + 1 - Z.of_nat p) by lia.
    f_equal; [|f_equal].
    + destruct (Z.eq_dec v 0) as [-> | Hne]; [|rewrite Z.mod_small by lia; reflexivity]. replace ((0 + -1) mod n) with (n - 1) by (rewrite <- (Z_mod_plus_full _ 1), Z.mod_small; lia).
      rewrite (proj1 Hedge). symmetry. apply Hout. left. reflexivity.
    + destruct (Z.eq_dec v (n - 1)) as [-> | Hne]; [|rewrite Z.mod_small by lia; reflexivity]. replace (n - 1 + 1) with n by lia. rewrite Z_mod_same_full, (proj2 Hedge). symmetry. apply Hout. right. reflexivity.
Qed.

Lemma ca1d_rot n net : 3 <= n -> cellular_automaton n 1 true = Ok net -> net_rot net <> None.
Proof. intros Hn E. destruct (ca1d_ordered n 1 Hn ltac:(lia)) as (net' & rs & E' & Erot & _). rewrite E in E'. injection E' as <-. rewrite Erot. discriminate. Qed.

Section Scripts.
  Context {U I BA BN : Type} (W : env Z Z Z BA BN) (Hlab : forall i, e_lab W i = Z.of_nat i).
  Notation demo := (elementary_ca_demo (U := U) (I := I) W).

  (** any rule: the rows are the iterates of the global map, with and without memoize *)
  Theorem C118_eca : forall fuel u0 N p q T memoize, (3 <= p + 1 + q)%nat -> 0 <= N < 256 -> 1 <= T -> (Z.to_nat T <= fuel)%nat ->
    demo fuel u0 N p q T memoize = Ok (rows (Z.of_nat (p + 1 + q)) (fun k => ca_state (ring_nb (Z.of_nat (p + 1 + q)) 1) (eca N) k (start30 p)) (Z.to_nat T)).
  Proof.
    intros fuel u0 N p q T memoize Hpq HN HT Hf. set (n := Z.of_nat (p + 1 + q)). assert (Hn : 3 <= n) by lia. set (init := repeat 0 p ++ [1] ++ repeat 0 q).
    assert (Hli : Z.of_nat (length init) = n) by (unfold init, n; rewrite !app_length, !repeat_length; cbn [length]; lia).
    assert (Hcell : forall v, 0 <= v < n -> nth_error init (Z.to_nat v) = Some (start30 p v)).
    { intros v Hv. unfold start30, init. destruct (Z.eqb_spec v (Z.of_nat p)) as [->|Hne].
      - rewrite Nat2Z.id, nth_error_app2, repeat_length, Nat.sub_diag by (rewrite repeat_length; lia). reflexivity.
      - destruct (Z.ltb_spec v (Z.of_nat p)).
        + rewrite nth_error_app1 by (rewrite repeat_length; lia). apply nth_error_repeat. lia.
        + rewrite nth_error_app2 by (rewrite repeat_length; lia). rewrite repeat_length, nth_error_app2 by (cbn; lia). apply nth_error_repeat. cbn [length]. unfold n in Hv. lia. }
    destruct (ring_lattice n 1 Hn ltac:(lia) ltac:(lia)) as (net & E & Hlat). pose proof Hlat as (Hnd & Hnodes & Hcl & Hlen & Hnb & Hub).
    pose proof (shows_list W init Hlab) as (S1 & S2 & S3). rewrite Hli in S2, S3.
    destruct (ca_run (I := I) W fuel u0 net (ring_nb n 1) (CList init) T (elementary_args N false) (nks_ca_rule N) (eca N) bit (start30 p)) as (uf & traj & hs & Ev & Hl & Hshow & Hz & Hkeys & Hk).
    - repeat split; reflexivity.
    - exact Hnd.
    - exact HT.
    - exact Hf.
    - cbn [to_dict]. unfold enumerate. rewrite map_length, combine_length, seq_length. lia.
    - exact Hcl.
    - intros v Hv. apply Hnb, Hnodes, Hv.
    - intros v Hv. apply Hnodes in Hv. rewrite S3 by exact Hv. apply Hcell, Hv.
    - intros v _. unfold start30, bit. destruct (v =? Z.of_nat p); auto.
    - intros x Hx _ Ha Hla. split; [|apply bit_eca]. apply C30_testbit; [exact Ha|]. rewrite Hla, length_ring_nb by lia. exact HN.
    - unfold elementary_ca_demo. fold n. rewrite E. cbn [rbind].
      assert (Em : evolve W fuel u0 net (Some (CList init)) (Some T) None (elementary_args (I := I) N memoize) = Ok (uf, traj)).
      { rewrite <- Ev. destruct memoize; [|reflexivity].
        apply (C24_default_key_ordered W fuel u0 net (Some (CList init)) (Some T) None (elementary_args N false) (nks_ca_rule N)).
        - reflexivity.
        - apply (ca1d_rot n); assumption.
        - reflexivity.
        - intros x y Exy. unfold nks_ca_rule, binary_ca_rule. rewrite Exy. reflexivity. }
      cbv zeta. fold init. rewrite Em. cbn [rbind]. rewrite (read_rows W traj hs n (fun k => ca_state (ring_nb n 1) (eca N) k (start30 p)) ltac:(lia) Hshow).
      + do 2 f_equal. lia.
      + intros [|k] S Ek; [rewrite Hz in Ek; injection Ek as <-; split; assumption|]. unfold dkeys. rewrite (Hkeys k S Ek). split; assumption.
      + intros k S v Ek Hv. apply (Hk k S Ek v). apply Hnodes, Hv.
  Qed.

  (** rule 30: until the triangle has reached both ends, the rows are those of the line *)
  Theorem C118_script : forall fuel u0 p q T memoize, (3 <= p + 1 + q)%nat -> 1 <= T -> T <= Z.of_nat p + 1 -> T <= Z.of_nat q + 1 -> (Z.to_nat T <= fuel)%nat ->
    demo fuel u0 30 p q T memoize = Ok (map (fun t => map (fun v => Z.b2z (world30 t (v - Z.of_nat p))) (zrange 0 (Z.of_nat (p + 1 + q)))) (seq 0 (Z.to_nat T))).
  Proof.
    intros fuel u0 p q T memoize Hpq HT Hp Hq Hf. rewrite C118_eca by (assumption || lia). f_equal. unfold rows, row. apply map_ext_in. intros t Ht. apply in_seq in Ht. apply map_ext_in. intros v Hv. apply in_zrange in Hv.
    apply ring_shows; lia.
  Qed.
End Scripts.
Print Assumptions C118_eca.
Print Assumptions C118_script.

(** one step more and the two ends meet *)
Theorem C118_wraps_refuted : exists p q T, (3 <= p + 1 + q)%nat /\ T = Z.of_nat q + 2 /\ T <= Z.of_nat p + 1 /\
  elementary_ca_demo (U := unit) (I := unit) W0 9 tt 30 p q T true <> Ok (map (fun t => map (fun v => Z.b2z (world30 t (v - Z.of_nat p))) (zrange 0 (Z.of_nat (p + 1 + q)))) (seq 0 (Z.to_nat T))).
Proof. exists 3%nat, 2%nat, 4. split; [lia|]. split; [reflexivity|]. split; [lia|]. vm_compute. discriminate. Qed.
Print Assumptions C118_wraps_refuted.

(** the numbers of elementary_ca_demo.py and of animation_demo.py meet the hypotheses *)
Example C118_script_ex : (3 <= 100 + 1 + 99)%nat /\ 100 <= Z.of_nat 100 + 1 /\ 100 <= Z.of_nat 99 + 1 /\ 100 <= Z.of_nat 112 + 1 /\ Z.of_nat (100 + 1 + 99) = 200 /\ Z.of_nat (112 + 1 + 112) = 225.
Proof. lia. Qed.
Example C118_rows_ex : elementary_ca_demo (U := unit) (I := unit) W0 9 tt 30 4 4 5 true = Ok
  [[0; 0; 0; 0; 1; 0; 0; 0; 0];
   [0; 0; 0; 1; 1; 1; 0; 0; 0];
   [0; 0; 1; 1; 0; 0; 1; 0; 0];
   [0; 1; 1; 0; 1; 1; 1; 1; 0];
   [1; 1; 0; 0; 1; 0; 0; 0; 1]].
Proof. vm_compute. reflexivity. Qed.
(** the diagonal three places inside on the right has period four and no smaller one; that two places inside on the left is not periodic from the start *)
Example C118_right_ex : map (right_diagonal 3) (seq 0 8) = [false; false; true; true; false; false; true; true].
Proof. vm_compute. reflexivity. Qed.
Example C118_left_ex : map (left_diagonal 2) (seq 0 6) = [false; true; false; false; false; false] /\ ~ repeats (left_diagonal 2) 0 (2 ^ 2).
Proof. split; [vm_compute; reflexivity|]. intros H. specialize (H 1%nat ltac:(lia)). vm_compute in H. discriminate. Qed.
(** sequences can repeat: the edge of the triangle does, so the hypotheses of C118_columns speak of something *)
Example C118_periodic_ex : ev_periodic (right_diagonal 3) /\ ~ (ev_periodic (column 0) /\ ev_periodic (column 1)).
Proof. split; [exists 0%nat, (2 ^ 3)%nat; split; [cbn; lia|apply C118_right_diagonals]|]. intros [H0 H1]. exact (C118_columns 0 1 ltac:(lia) H0 H1). Qed.

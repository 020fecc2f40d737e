(** * ListFacts: ranges, sorted lists and rotations. *)
From Coq Require Import Sorted.
From Verif Require Import Py PyFacts.
Open Scope Z_scope.
#[global] Arguments Z.add : simpl never.
#[global] Arguments Z.sub : simpl never.
#[global] Arguments Z.mul : simpl never.
#[global] Arguments Z.opp : simpl never.
#[global] Arguments Z.div : simpl never.
#[global] Arguments Z.modulo : simpl never.
#[global] Arguments Z.of_nat : simpl never.
#[global] Arguments Z.to_nat : simpl never.
#[global] Arguments Z.pow : simpl never.
Ltac dlia := Z.div_mod_to_equations; lia.
Ltac dnia := Z.div_mod_to_equations; nia.

(** ** zrange *)

Lemma in_zrange a b x : In x (zrange a b) <-> a <= x < b.
Proof.
  unfold zrange. rewrite in_map_iff. split.
  - intros (k & <- & Hk). apply in_seq in Hk. lia.
  - intros Hx. exists (Z.to_nat (x - a)). rewrite in_seq. lia.
Qed.

Lemma zrange_nil a b : b <= a -> zrange a b = [].
Proof. intros Hb. unfold zrange. replace (Z.to_nat (b - a)) with 0%nat by lia. reflexivity. Qed.

Lemma zrange_cons a b : a < b -> zrange a b = a :: zrange (a + 1) b.
Proof.
  intros Hb. unfold zrange. replace (Z.to_nat (b - a)) with (S (Z.to_nat (b - (a + 1)))) by lia.
  cbn [seq map]. f_equal; [lia|]. rewrite <- seq_shift, map_map. apply map_ext. intros k. lia.
Qed.

Lemma zrange_split a m b : a <= m <= b -> zrange a b = zrange a m ++ zrange m b.
Proof.
  intros Hm. unfold zrange. replace (Z.to_nat (b - a)) with (Z.to_nat (m - a) + Z.to_nat (b - m))%nat by lia.
  rewrite seq_app, map_app. f_equal.
  rewrite <- (Nat.add_0_r (0 + Z.to_nat (m - a))), Nat.add_comm.
  generalize (Z.to_nat (b - m)). intros len.
  assert (E : forall s, map (fun k => a + Z.of_nat k) (seq (s + Z.to_nat (m - a)) len) = map (fun k => m + Z.of_nat k) (seq s len)).
  { induction len as [|len IH]; intros s; cbn [seq map]; [reflexivity|]. f_equal; [lia|]. apply (IH (S s)). }
  apply (E 0%nat).
Qed.

Lemma zrange_snoc a b : a < b -> zrange a b = zrange a (b - 1) ++ [b - 1].
Proof.
  intros Hb. rewrite (zrange_split a (b - 1) b) by lia. f_equal.
  rewrite zrange_cons by lia. rewrite zrange_nil by lia. reflexivity.
Qed.

Lemma length_zrange a b : length (zrange a b) = Z.to_nat (b - a).
Proof. unfold zrange. rewrite map_length, seq_length. reflexivity. Qed.

Lemma NoDup_zrange a b : NoDup (zrange a b).
Proof.
  unfold zrange. apply FinFun.Injective_map_NoDup; [|apply seq_NoDup]. intros x y. lia.
Qed.

Lemma nth_error_zrange a b k : (k < Z.to_nat (b - a))%nat -> nth_error (zrange a b) k = Some (a + Z.of_nat k).
Proof.
  intros Hk. unfold zrange. rewrite nth_error_map.
  rewrite (nth_error_nth' _ 0%nat) by (rewrite seq_length; assumption). rewrite seq_nth by assumption. reflexivity.
Qed.

Lemma zrange_shift a b d : zrange (a + d) (b + d) = map (fun x => x + d) (zrange a b).
Proof.
  unfold zrange. rewrite map_map. replace (b + d - (a + d)) with (b - a) by lia. apply map_ext. intros k. lia.
Qed.

(** ** strictly ascending lists *)

Definition asc (l : list Z) : Prop := StronglySorted Z.lt l.

Lemma asc_nil : asc [].
Proof. constructor. Qed.

Lemma asc_cons_inv x l : asc (x :: l) -> asc l /\ forall y, In y l -> x < y.
Proof. intros Ha. inversion Ha as [|? ? Hs Hf]; subst. split; [assumption|]. apply Forall_forall. assumption. Qed.

Lemma asc_cons x l : asc l -> (forall y, In y l -> x < y) -> asc (x :: l).
Proof. intros Ha Hl. constructor; [assumption|]. apply Forall_forall. assumption. Qed.

Lemma asc_app l l' : asc l -> asc l' -> (forall x y, In x l -> In y l' -> x < y) -> asc (l ++ l').
Proof.
  intros Hl Hl' Hlt. induction l as [|x xs IH]; [assumption|].
  apply asc_cons_inv in Hl. destruct Hl as [Hxs Hx]. cbn. apply asc_cons.
  - apply IH; [assumption|]. intros y z Hy Hz. apply Hlt; [right|]; assumption.
  - intros y Hy. apply in_app_iff in Hy. destruct Hy as [Hy|Hy]; [apply Hx|apply Hlt; [left; reflexivity|]]; assumption.
Qed.

Lemma asc_filter p l : asc l -> asc (filter p l).
Proof.
  induction l as [|x xs IH]; intros Ha; [assumption|]. apply asc_cons_inv in Ha. destruct Ha as [Hxs Hx].
  cbn. destruct (p x); [|auto]. apply asc_cons; [auto|]. intros y Hy. apply Hx. apply filter_In in Hy. tauto.
Qed.

Lemma asc_zrange a b : asc (zrange a b).
Proof.
  remember (Z.to_nat (b - a)) as k eqn:Ek. revert a Ek. induction k as [|k IH]; intros a Ek.
  - rewrite zrange_nil by lia. apply asc_nil.
  - rewrite zrange_cons by lia. apply asc_cons; [apply IH; lia|]. intros y Hy. apply in_zrange in Hy. lia.
Qed.

Lemma asc_map (f : Z -> Z) l : (forall x y, In x l -> In y l -> x < y -> f x < f y) -> asc l -> asc (map f l).
Proof.
  induction l as [|x xs IH]; intros Hf Ha; [apply asc_nil|]. apply asc_cons_inv in Ha. destruct Ha as [Hxs Hx].
  cbn. apply asc_cons.
  - apply IH; [|assumption]. intros y z Hy Hz. apply Hf; right; assumption.
  - intros y Hy. apply in_map_iff in Hy. destruct Hy as (z & <- & Hz).
    apply Hf; [left; reflexivity|right; assumption|apply Hx; assumption].
Qed.

Lemma asc_NoDup l : asc l -> NoDup l.
Proof.
  induction l as [|x xs IH]; intros Ha; constructor; apply asc_cons_inv in Ha; destruct Ha as [Hxs Hx].
  - intros Hin. apply Hx in Hin. lia.
  - auto.
Qed.

Lemma asc_unique l l' : asc l -> asc l' -> (forall x, In x l <-> In x l') -> l = l'.
Proof.
  revert l'. induction l as [|x xs IH]; intros l' Ha Ha' Hin.
  - destruct l' as [|y ys]; [reflexivity|]. exfalso. apply (Hin y). left; reflexivity.
  - destruct l' as [|y ys]; [exfalso; apply (Hin x); left; reflexivity|].
    apply asc_cons_inv in Ha. apply asc_cons_inv in Ha'. destruct Ha as [Hxs Hx], Ha' as [Hys Hy].
    assert (E : x = y).
    { destruct (proj1 (Hin x) (or_introl eq_refl)) as [E|Hi]; [auto|].
      destruct (proj2 (Hin y) (or_introl eq_refl)) as [E|Hi']; [auto|].
      apply Hy in Hi. apply Hx in Hi'. lia. }
    subst y. f_equal. apply IH; try assumption. intros z. split; intros Hz.
    + destruct (proj1 (Hin z) (or_intror Hz)) as [E|Hi]; [|assumption]. apply Hx in Hz. lia.
    + destruct (proj2 (Hin z) (or_intror Hz)) as [E|Hi]; [|assumption]. apply Hy in Hz. lia.
Qed.

(** ** rotations *)

Definition rot {A} (k : nat) (l : list A) : list A := skipn k l ++ firstn k l.

Lemma length_rot {A} k (l : list A) : length (rot k l) = length l.
Proof. unfold rot. rewrite app_length, skipn_length, firstn_length. lia. Qed.

Lemma rot_perm {A} k (l : list A) : Permutation (rot k l) l.
Proof. unfold rot. rewrite Permutation_app_comm, firstn_skipn. reflexivity. Qed.

Lemma nth_error_firstn_lt {A} (l : list A) k i : (i < k)%nat -> nth_error (firstn k l) i = nth_error l i.
Proof.
  revert k i. induction l as [|x xs IH]; intros [|k] [|i] Hi; cbn; try reflexivity; try lia. apply IH. lia.
Qed.

Lemma nth_error_skipn {A} (l : list A) k i : nth_error (skipn k l) i = nth_error l (k + i).
Proof. revert k. induction l as [|x xs IH]; intros [|k]; cbn; try reflexivity. - destruct i; reflexivity. - apply IH. Qed.

Lemma nth_error_rot {A} k (l : list A) p : (k <= length l)%nat -> (p < length l)%nat ->
  nth_error (rot k l) p = nth_error l ((p + k) mod length l).
Proof.
  intros Hk Hp. unfold rot. destruct (Nat.lt_ge_cases p (length l - k)) as [Hlt|Hge].
  - rewrite nth_error_app1 by (rewrite skipn_length; assumption). rewrite nth_error_skipn.
    rewrite Nat.mod_small by lia. f_equal. lia.
  - rewrite nth_error_app2 by (rewrite skipn_length; lia). rewrite skipn_length.
    rewrite nth_error_firstn_lt by lia. f_equal.
    replace (p + k)%nat with (p - (length l - k) + 1 * length l)%nat by lia.
    rewrite Nat.mod_add by lia. symmetry. apply Nat.mod_small. lia.
Qed.

(** two rotations of a duplicate-free list that agree at one position are equal *)
Lemma rot_unique {A} (l : list A) k1 k2 p x :
  NoDup l -> (k1 <= length l)%nat -> (k2 <= length l)%nat -> (p < length l)%nat ->
  nth_error (rot k1 l) p = Some x -> nth_error (rot k2 l) p = Some x -> rot k1 l = rot k2 l.
Proof.
  intros Hnd Hk1 Hk2 Hp E1 E2. rewrite nth_error_rot in E1, E2 by assumption.
  assert (E : ((p + k1) mod length l = (p + k2) mod length l)%nat).
  { eapply NoDup_nth_error; [eassumption| |congruence]. apply Nat.mod_upper_bound. lia. }
  apply nth_error_ext. intros i. destruct (Nat.lt_ge_cases i (length l)) as [Hi|Hi].
  - rewrite !nth_error_rot by assumption. f_equal.
    assert (Hz : (Z.of_nat ((i + k1) mod length l) = Z.of_nat ((i + k2) mod length l))%Z).
    { apply (f_equal Z.of_nat) in E. rewrite !Nat2Z.inj_mod, !Nat2Z.inj_add in *.
      rewrite <- (Z.sub_add (Z.of_nat p) (Z.of_nat i)), <- !Z.add_assoc.
      rewrite <- Z.add_mod_idemp_r, E, Z.add_mod_idemp_r by lia. reflexivity. }
    lia.
  - rewrite (proj2 (nth_error_None _ _)), (proj2 (nth_error_None _ _)); [reflexivity| |]; rewrite length_rot; assumption.
Qed.

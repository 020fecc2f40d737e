(** * C119: the Collatz demos with Python's numbers *)
From Verif Require Import Py PyFacts ListFacts Network Topology Evolve EvolveSpec EvolveProofs EvolveStatic Rules RulesSpec RulesProofs Utils UtilsProofs PropUtils Machines MachinesProofs PropMachines PyFloat CollatzDemo.
Open Scope string_scope.
Open Scope list_scope.
Open Scope Z_scope.

(** ** rounding *)
(** the integers that are floats *)
Definition representable (z : Z) : Prop := exists m e, 0 <= e /\ Z.abs m <= 2 ^ 53 /\ z = m * 2 ^ e.

Lemma round_small z : Z.abs z <= 2 ^ 53 -> round53 z = z.
Proof. intros Hz. unfold round53. destruct (Z.leb_spec (Z.abs z) (2 ^ 53)); [reflexivity|lia]. Qed.
Lemma round_large z : 2 ^ 53 < Z.abs z -> exists e q, 1 <= e /\ 2 ^ 52 * 2 ^ e <= Z.abs z < 2 ^ 53 * 2 ^ e /\ round53 z = q * 2 ^ e /\ 2 ^ 52 <= Z.abs q <= 2 ^ 53 /\
  2 * Z.abs (q * 2 ^ e - z) <= 2 ^ e /\ (2 * Z.abs (q * 2 ^ e - z) = 2 ^ e -> Z.even q = true).
Proof.
  intros Hz. unfold round53. destruct (Z.leb_spec (Z.abs z) (2 ^ 53)); [lia|]. set (e := Z.log2 (Z.abs z) - 52).
  assert (He : 1 <= e) by (unfold e; pose proof (Z.log2_le_mono (2 ^ 53) (Z.abs z) ltac:(lia)) as Hl; rewrite Z.log2_pow2 in Hl; lia).
  destruct (Z.log2_spec (Z.abs z) ltac:(lia)) as [L1 L2]. replace (Z.log2 (Z.abs z)) with (52 + e) in L1 by (unfold e; lia). replace (Z.succ (Z.log2 (Z.abs z))) with (53 + e) in L2 by (unfold e; lia).
  rewrite Z.pow_add_r in L1, L2 by lia. assert (EP : 2 ^ e = 2 * 2 ^ (e - 1)) by (rewrite <- Z.pow_succ_r by lia; f_equal; lia). assert (HH : 0 < 2 ^ (e - 1)) by (apply Z.pow_pos_nonneg; lia).
  pose proof (Z_div_mod_eq_full z (2 ^ e)) as Ez. pose proof (Z.mod_pos_bound z (2 ^ e) ltac:(lia)) as Hr. clearbody e. cbv zeta.
  set (q := z / 2 ^ e) in *. set (r := z mod 2 ^ e) in *. set (P := 2 ^ e) in *. set (h := 2 ^ (e - 1)) in *. assert (EPe : 2 ^ e = P) by reflexivity. clearbody q r P h.
  set (A := 2 ^ 52) in *. assert (EA : 2 ^ 53 = 2 * A) by reflexivity. rewrite EA in *. assert (HA : 0 < A) by reflexivity. clearbody A.
  assert (Hz2 : - (2 * A * P) < z < 2 * A * P) by lia.
  assert (HqA : q < 2 * A) by (apply Z.lt_nge; intros Hc; pose proof (Z.mul_le_mono_nonneg_l _ _ P ltac:(lia) Hc); lia).
  assert (HqB : - (2 * A) <= q) by (apply Z.le_ngt; intros Hc; assert (Hc' : q + 1 <= - (2 * A)) by lia; pose proof (Z.mul_le_mono_nonneg_l _ _ P ltac:(lia) Hc'); lia).
  assert (Hq : - (2 * A) <= q < 2 * A) by lia.
  assert (Hq2 : A <= q \/ q <= - A - 1 \/ (q = - A /\ r = 0)).
  { destruct (Z.le_gt_cases A q) as [|HqC]; [left; assumption|]. right. destruct (Z.le_gt_cases q (- A - 1)) as [|HqD]; [left; assumption|]. right.
    assert (Hc : q + 1 <= A) by lia. pose proof (Z.mul_le_mono_nonneg_l _ _ P ltac:(lia) Hc). assert (Hc' : - A <= q) by lia. pose proof (Z.mul_le_mono_nonneg_l _ _ P ltac:(lia) Hc').
    assert (Hz3 : z <= - (A * P)) by lia. destruct (Z.eq_dec q (- A)) as [-> | Hne]; [split; [reflexivity|lia]|]. assert (Hc2 : - A + 1 <= q) by lia. pose proof (Z.mul_le_mono_nonneg_l _ _ P ltac:(lia) Hc2). lia. }
  assert (He1 : forall q', q' = q \/ q' = q + 1 -> (q' = q + 1 -> 0 < r) -> A <= Z.abs q' <= 2 * A) by (intros q' Hq' Hr0; lia).
  exists e.
  destruct (Z.ltb_spec r h); [|destruct (Z.ltb_spec h r); [|destruct (Z.even q) eqn:Ev]].
  - exists q. rewrite EPe. split; [exact He|]. split; [lia|]. split; [reflexivity|]. split; [apply He1; lia|]. split; [lia|]. intros Ht. exfalso. lia.
  - exists (q + 1). rewrite EPe. split; [exact He|]. split; [lia|]. split; [reflexivity|]. split; [apply He1; lia|]. split; [lia|]. intros Ht. exfalso. lia.
  - exists q. rewrite EPe. split; [exact He|]. split; [lia|]. split; [reflexivity|]. split; [apply He1; lia|]. split; [lia|]. intros _. exact Ev.
  - exists (q + 1). rewrite EPe. split; [exact He|]. split; [lia|]. split; [reflexivity|]. split; [apply He1; lia|]. split; [lia|]. intros _. rewrite Z.add_1_r, Z.even_succ, <- Z.negb_even, Ev. reflexivity.
Qed.
Lemma representable_round z : representable (round53 z).
Proof.
  destruct (Z.le_gt_cases (Z.abs z) (2 ^ 53)) as [Hs|Hl]; [rewrite round_small by exact Hs; exists z, 0; split; [lia|]; split; [exact Hs|lia]|].
  destruct (round_large z Hl) as (e & q & He & _ & -> & Hq & _). exists q, e. split; [lia|]. split; [lia|reflexivity].
Qed.
Lemma representable_multiple e r : 1 <= e -> 2 ^ 52 * 2 ^ e <= Z.abs r -> representable r -> exists k, r = k * 2 ^ e.
Proof.
  intros He Hr (m & f & Hf & Hm & ->). destruct (Z.le_gt_cases e f) as [Hle|Hgt].
  - exists (m * 2 ^ (f - e)). rewrite <- Z.mul_assoc, <- Z.pow_add_r by lia. do 2 f_equal. lia.
  - assert (E : 2 ^ e = 2 ^ (e - f) * 2 ^ f) by (rewrite <- Z.pow_add_r by lia; f_equal; lia). assert (Hp : 0 < 2 ^ f) by (apply Z.pow_pos_nonneg; lia).
    assert (E2 : 2 ^ (e - f) = 2 * 2 ^ (e - f - 1)) by (rewrite <- Z.pow_succ_r by lia; f_equal; lia). assert (Hp2 : 0 < 2 ^ (e - f - 1)) by (apply Z.pow_pos_nonneg; lia).
    rewrite E, E2 in Hr |- *. rewrite Z.abs_mul, (Z.abs_eq (2 ^ f)) in Hr by lia. set (F := 2 ^ f) in *. set (G := 2 ^ (e - f - 1)) in *. clearbody F G.
    change (2 ^ 53) with (2 * 2 ^ 52) in Hm. set (A := 2 ^ 52) in *. assert (HA : 0 < A) by reflexivity. clearbody A.
    assert (Hg : 2 * A * G <= Z.abs m) by nia. assert (HG : G = 1) by nia. subst G. assert (Hm2 : m = 2 * A \/ m = - (2 * A)) by lia.
    destruct Hm2 as [-> | ->]; [exists A|exists (- A)]; lia.
Qed.

(** the rounding is that of IEEE 754: the result is a float, none is nearer, and of two that are equally near it is the one with the even significand *)
Theorem C119_rounding : forall z, representable (round53 z) /\ (forall r, representable r -> Z.abs (round53 z - z) <= Z.abs (r - z)) /\
  (forall r, representable r -> r <> round53 z -> Z.abs (r - z) = Z.abs (round53 z - z) -> exists m e, 0 <= e /\ 2 ^ 52 <= Z.abs m <= 2 ^ 53 /\ Z.even m = true /\ round53 z = m * 2 ^ e).
Proof.
  intros z. split; [apply representable_round|]. destruct (Z.le_gt_cases (Z.abs z) (2 ^ 53)) as [Hs|Hl].
  - rewrite round_small by exact Hs. split; intros; lia.
  - destruct (round_large z Hl) as (e & q & He & Hb & -> & Hq & Hn & Ht). assert (HP : 0 < 2 ^ e) by (apply Z.pow_pos_nonneg; lia).
    assert (Hnear : forall k, Z.abs (q * 2 ^ e - z) <= Z.abs (k * 2 ^ e - z) /\ (k <> q -> Z.abs (k * 2 ^ e - z) = Z.abs (q * 2 ^ e - z) -> 2 * Z.abs (q * 2 ^ e - z) = 2 ^ e)).
    { intros k. set (P := 2 ^ e) in *. clearbody P. destruct (Z.eq_dec k q) as [-> | Hne]; [split; [lia|intros; contradiction]|]. assert (Hd : P <= Z.abs (k * P - q * P)) by (rewrite <- Z.mul_sub_distr_r, Z.abs_mul; nia). split; [lia|]. intros _ E. lia. }
    assert (Hmul : forall r, representable r -> (exists k, r = k * 2 ^ e) \/ exists k, Z.abs (k * 2 ^ e - z) < Z.abs (r - z)).
    { intros r Hr. destruct (Z.le_gt_cases (2 ^ 52 * 2 ^ e) (Z.abs r)) as [Hle|Hgt]; [left; apply representable_multiple; assumption|]. right.
      exists (if 0 <=? z then 2 ^ 52 else - 2 ^ 52). destruct (Z.leb_spec 0 z); lia. }
    split.
    + intros r Hr. destruct (Hmul r Hr) as [(k & ->)|(k & Hk)]; [apply Hnear|]. pose proof (proj1 (Hnear k)). lia.
    + intros r Hr Hne E. destruct (Hmul r Hr) as [(k & ->)|(k & Hk)]; [|pose proof (proj1 (Hnear k)); lia].
      exists q, e. split; [lia|]. split; [exact Hq|]. split; [|reflexivity]. apply Ht, (proj2 (Hnear k)); [congruence|exact E].
Qed.
Print Assumptions C119_rounding.

Lemma round_bound z : Z.abs (round53 z) <= 2 * Z.abs z.
Proof.
  destruct (Z.le_gt_cases (Z.abs z) (2 ^ 53)) as [Hs|Hl]; [rewrite round_small by exact Hs; lia|]. destruct (round_large z Hl) as (e & q & He & Hb & -> & Hq & Hn & _).
  assert (HP : 0 < 2 ^ e) by (apply Z.pow_pos_nonneg; lia). lia.
Qed.
Lemma odd_small z : representable z -> Z.even z = false -> Z.abs z < 2 ^ 53.
Proof.
  intros (m & e & He & Hm & ->) Ho. destruct (Z.eq_dec e 0) as [-> | Hne].
  - rewrite Z.mul_1_r in *. assert (Z.abs m <> 2 ^ 53) by (intros E; assert (E2 : m = 2 ^ 53 \/ m = - 2 ^ 53) by lia; destruct E2 as [-> | ->]; discriminate). lia.
  - exfalso. rewrite Z.even_mul, (Z.even_pow 2 e) in Ho by lia. rewrite orb_true_r in Ho. discriminate.
Qed.
Lemma half_representable z : representable z -> Z.even z = true -> representable (z / 2).
Proof.
  intros (m & e & He & Hm & ->) Ho. destruct (Z.eq_dec e 0) as [-> | Hne].
  - exists (m / 2), 0. rewrite !Z.mul_1_r in *. apply Z.even_spec in Ho. destruct Ho as [k ->]. rewrite (Z.mul_comm 2 k), Z.div_mul by lia. lia.
  - exists m, (e - 1). split; [lia|]. split; [exact Hm|]. replace (m * 2 ^ e) with (m * 2 ^ (e - 1) * 2); [apply Z.div_mul; lia|]. rewrite <- Z.mul_assoc, (Z.mul_comm _ 2), <- Z.pow_succ_r by lia. do 2 f_equal. lia.
Qed.

(** ** the sequence *)
(** the numbers of a run; where the rule raises (never below, as C119_bounded shows) the number is repeated *)
Definition fnext (x : num) : num := match collatz_num x with Ok y => y | Err _ => x end.
Definition forbit (n : Z) (k : nat) : num := Nat.iter k fnext (PInt n).

Definition limit (n : Z) : Z := Z.max (Z.abs (3 * n + 1)) (2 ^ 57).
(** what a number of the run can be *)
Definition reached (n : Z) (x : num) : Prop :=
  match x with
  | PInt z => z = n \/ (z = 3 * n + 1 /\ Z.even z = true)
  | PFloat z => representable z /\ Z.abs z <= limit n
  end.
Lemma is_even_spec x : is_even x = Z.even (value x).
Proof. unfold is_even. rewrite Zmod_even. destruct (Z.even (value x)); reflexivity. Qed.
Lemma half_abs z : Z.even z = true -> 2 * Z.abs (z / 2) = Z.abs z.
Proof. intros Ho. apply Z.even_spec in Ho. destruct Ho as [k ->]. rewrite (Z.mul_comm 2 k), Z.div_mul by lia. lia. Qed.
Lemma to_float_ok e z B : Z.abs (round53 z) <= B -> B < 2 ^ 1024 -> to_float e z = Ok (PFloat (round53 z)).
Proof. intros H1 H2. unfold to_float. destruct (Z.ltb_spec (Z.abs (round53 z)) (2 ^ 1024)) as [_|Hc]; [reflexivity|]. exfalso. apply (Z.lt_irrefl B). eapply Z.lt_le_trans; [exact H2|]. eapply Z.le_trans; eassumption. Qed.

Lemma reached_next n x : limit n < 2 ^ 1024 -> reached n x -> exists y, collatz_num x = Ok y /\ reached n y.
Proof.
  intros Hn Hx. unfold collatz_num. rewrite is_even_spec. assert (Hl : 2 ^ 57 <= limit n /\ Z.abs (3 * n + 1) <= limit n) by (unfold limit; lia).
  destruct x as [z|z]; cbn [value reached] in *.
  - destruct (Z.even z) eqn:Ev.
    + assert (Hz : Z.abs z <= limit n) by (destruct Hx as [-> | [-> _]]; lia).
      assert (Hr : Z.abs (round53 (z / 2)) <= limit n) by (pose proof (round_bound (z / 2)); pose proof (half_abs z Ev); lia).
      exists (PFloat (round53 (z / 2))). split; [apply (to_float_ok _ _ (limit n)); assumption|]. split; [apply representable_round|exact Hr].
    + destruct Hx as [-> | [_ Hx]]; [|congruence]. exists (PInt (3 * n + 1)). split; [reflexivity|]. right. split; [reflexivity|]. rewrite Z.even_add, Z.even_mul, Ev. reflexivity.
  - destruct Hx as [Hr Hz]. destruct (Z.even z) eqn:Ev.
    + exists (PFloat (z / 2)). split; [reflexivity|]. split; [apply half_representable; assumption|]. pose proof (half_abs z Ev). lia.
    + pose proof (odd_small z Hr Ev) as Hs. pose proof (round_bound (3 * z)) as H1. pose proof (round_bound (round53 (3 * z) + 1)) as H2.
      assert (B1 : Z.abs (round53 (3 * z)) <= limit n) by lia.
      assert (B2 : Z.abs (round53 (round53 (3 * z) + 1)) <= limit n) by (change (2 ^ 57) with (16 * 2 ^ 53) in Hl; lia).
      exists (PFloat (round53 (round53 (3 * z) + 1))). split; [|split; [apply representable_round|exact B2]].
      cbn [triple_plus_one]. rewrite (to_float_ok _ _ (limit n)) by assumption. cbn [rbind value]. apply (to_float_ok _ _ (limit n)); assumption.
Qed.

Lemma forbit_reached n k : limit n < 2 ^ 1024 -> reached n (forbit n k) /\ collatz_num (forbit n k) = Ok (forbit n (S k)).
Proof.
  intros Hn. assert (Hr : reached n (forbit n k)).
  { induction k as [|k IH]; [left; reflexivity|]. change (forbit n (S k)) with (fnext (forbit n k)). unfold fnext. destruct (reached_next n _ Hn IH) as (y & E & Hy). rewrite E. exact Hy. }
  split; [exact Hr|]. change (forbit n (S k)) with (fnext (forbit n k)). unfold fnext. destruct (reached_next n _ Hn Hr) as (y & E & _). rewrite E. reflexivity.
Qed.

(** no step raises, and the numbers stay below a bound: floats cannot run away *)
Theorem C119_bounded : forall n k, Z.abs (3 * n + 1) < 2 ^ 1024 -> collatz_num (forbit n k) = Ok (forbit n (S k)) /\ Z.abs (value (forbit n k)) <= Z.max (Z.abs (3 * n + 1)) (2 ^ 57).
Proof.
  intros n k Hn. assert (Hl : limit n < 2 ^ 1024) by (apply Z.max_lub_lt; [exact Hn|apply Z.pow_lt_mono_r; lia]). destruct (forbit_reached n k Hl) as [Hr E]. split; [exact E|]. fold (limit n).
  destruct (forbit n k) as [z|z]; cbn [reached value] in *; [|apply Hr]. unfold limit. destruct Hr as [-> | [-> _]]; lia.
Qed.
Print Assumptions C119_bounded.

(** so they repeat in the end *)
Lemma duplicate {X} (dec : forall a b : X, {a = b} + {a <> b}) (l : list X) : ~ NoDup l -> exists a l1 l2 l3, l = l1 ++ a :: l2 ++ a :: l3.
Proof.
  induction l as [|a l IH]; intros Hn; [exfalso; apply Hn; constructor|]. destruct (in_dec dec a l) as [Hi|Hi].
  - apply in_split in Hi. destruct Hi as (l2 & l3 & ->). exists a, [], l2, l3. reflexivity.
  - destruct IH as (b & l1 & l2 & l3 & ->); [intros Hnd; apply Hn; constructor; assumption|]. exists b, (a :: l1), l2, l3. reflexivity.
Qed.
Lemma finite_repeats {X} (dec : forall a b : X, {a = b} + {a <> b}) (f : X -> X) (x : X) (all : list X) : (forall k, In (Nat.iter k f x) all) ->
  exists t0 p, (1 <= p)%nat /\ forall t, (t0 <= t)%nat -> Nat.iter (t + p) f x = Nat.iter t f x.
Proof.
  intros Hin. set (l := map (fun k => Nat.iter k f x) (seq 0 (S (length all)))).
  assert (Hn : ~ NoDup l).
  { intros Hnd. assert (Hincl : incl l all) by (intros y Hy; apply in_map_iff in Hy; destruct Hy as (k & <- & _); apply Hin).
    pose proof (NoDup_incl_length Hnd Hincl) as Hlen. unfold l in Hlen. rewrite map_length, seq_length in Hlen. lia. }
  apply (duplicate dec) in Hn. destruct Hn as (a & l1 & l2 & l3 & El).
  assert (G : forall i, nth_error l i = Some a -> Nat.iter i f x = a).
  { intros i Ei. assert (Hi : (i < length l)%nat) by (apply nth_error_Some; congruence). unfold l in Ei, Hi. rewrite map_length, seq_length in Hi. rewrite nth_error_map, (nth_error_nth' _ 0%nat), seq_nth in Ei by (rewrite ?seq_length; exact Hi). cbn [option_map Nat.add] in Ei. injection Ei as Ei. exact Ei. }
  exists (length l1), (S (length l2)). split; [lia|]. intros t Ht. induction Ht as [|t Ht IH].
  - rewrite (G (length l1)), (G (length l1 + S (length l2))%nat); [reflexivity| |].
    + rewrite El, nth_error_app2 by lia. replace (length l1 + S (length l2) - length l1)%nat with (S (length l2)) by lia. cbn [nth_error]. rewrite nth_error_app2, Nat.sub_diag by lia. reflexivity.
    + rewrite El, nth_error_app2, Nat.sub_diag by lia. reflexivity.
  - cbn [Nat.add]. change (f (Nat.iter (t + S (length l2)) f x) = f (Nat.iter t f x)). f_equal. exact IH.
Qed.
Theorem C119_repeats : forall n, Z.abs (3 * n + 1) < 2 ^ 1024 -> exists t0 p, (1 <= p)%nat /\ forall t, (t0 <= t)%nat -> forbit n (t + p) = forbit n t.
Proof.
  intros n Hn. assert (Hl : limit n < 2 ^ 1024) by (apply Z.max_lub_lt; [exact Hn|apply Z.pow_lt_mono_r; lia]).
  apply (finite_repeats EqD_num fnext (PInt n) (PInt n :: PInt (3 * n + 1) :: map PFloat (zrange (- limit n) (limit n + 1)))). intros k. fold (forbit n k). destruct (forbit_reached n k Hl) as [Hr _].
  destruct (forbit n k) as [z|z]; cbn [reached] in Hr; [destruct Hr as [-> | [-> _]]; cbn [In]; auto|]. right. right. apply in_map, in_zrange. lia.
Qed.
Print Assumptions C119_repeats.

(** ** exactness *)
(** as long as the numbers of the true sequence are below 2^53 (the first one need not be), the run shows them *)
Theorem C119_exact : forall n T, (forall j, (1 <= j < T)%nat -> Z.abs (orbit n j) < 2 ^ 53) -> forall k, (k < T)%nat -> value (forbit n k) = orbit n k.
Proof.
  intros n T Hb. assert (G : forall k, (k < T)%nat -> value (forbit n k) = orbit n k /\ match forbit n k with PInt z => True | PFloat z => (1 <= k)%nat end); [|intros k Hk; apply G, Hk].
  induction k as [|k IH]; intros Hk; [split; [reflexivity|exact Logic.I]|]. destruct (IH ltac:(lia)) as [Ev Hf]. specialize (Hb (S k) ltac:(lia)) as Hs.
  change (forbit n (S k)) with (fnext (forbit n k)). change (orbit n (S k)) with (collatz (orbit n k)) in *. unfold fnext, collatz_num. rewrite is_even_spec, Ev. unfold collatz in *.
  assert (Hbig : 2 ^ 53 < 2 ^ 1024) by (apply Z.pow_lt_mono_r; lia).
  destruct (forbit n k) as [z|z]; cbn [value] in Ev; subst z; destruct (Z.even (orbit n k)) eqn:Eo; cbn [halve triple_plus_one value].
  - rewrite (to_float_ok _ _ (2 ^ 53)); [|rewrite round_small by lia; lia|exact Hbig]. rewrite round_small by lia. split; [reflexivity|lia].
  - split; [reflexivity|exact Logic.I].
  - split; [reflexivity|lia].
  - rewrite (to_float_ok _ _ (2 ^ 53)); [|rewrite round_small by lia; lia|exact Hbig]. rewrite round_small by lia. cbn [rbind value].
    rewrite (to_float_ok _ _ (2 ^ 53)); [|rewrite round_small by lia; lia|exact Hbig]. rewrite round_small by lia. split; [reflexivity|lia].
Qed.
Print Assumptions C119_exact.

(** beyond that the run can be wrong: 3 n + 1 is rounded *)
Theorem C119_inexact_refuted : exists n k, 1 <= n < 2 ^ 54 /\ value (forbit n k) <> orbit n k.
Proof. exists (2 ^ 53 + 6), 2%nat. split; [lia|]. vm_compute. discriminate. Qed.
Print Assumptions C119_inexact_refuted.

(** after the first 1 the numbers are 4, 2, 1, 4, 2, 1, ... *)
Theorem C119_cycle : forall n k, orbit n k = 1 -> (forall j, (1 <= j <= k)%nat -> Z.abs (orbit n j) < 2 ^ 53) ->
  forall i, value (forbit n (k + 3 * i)) = 1 /\ value (forbit n (k + 3 * i + 1)) = 4 /\ value (forbit n (k + 3 * i + 2)) = 2.
Proof.
  intros n k Hk Hb. assert (Ho : forall i, orbit n (k + 3 * i) = 1).
  { induction i as [|i IH]; [rewrite Nat.add_0_r; exact Hk|]. replace (k + 3 * S i)%nat with (S (S (S (k + 3 * i)))) by lia. change (orbit n (S (S (S ?m)))) with (collatz (collatz (collatz (orbit n m)))). rewrite IH. reflexivity. }
  assert (Ho1 : forall i, orbit n (k + 3 * i + 1) = 4) by (intros i; rewrite Nat.add_1_r; change (orbit n (S ?m)) with (collatz (orbit n m)); rewrite Ho; reflexivity).
  assert (Ho2 : forall i, orbit n (k + 3 * i + 2) = 2) by (intros i; replace (k + 3 * i + 2)%nat with (S (k + 3 * i + 1)) by lia; change (orbit n (S ?m)) with (collatz (orbit n m)); rewrite Ho1; reflexivity).
  assert (Hall : forall j, (1 <= j)%nat -> Z.abs (orbit n j) < 2 ^ 53).
  { intros j Hj. destruct (Nat.le_gt_cases j k) as [Hle|Hgt]; [apply Hb; lia|]. pose proof (Nat.div_mod (j - k) 3 ltac:(lia)) as Ed. pose proof (Nat.mod_upper_bound (j - k) 3 ltac:(lia)) as Hm. set (i := ((j - k) / 3)%nat) in *.
    assert (Ej : (j = k + 3 * i \/ j = k + 3 * i + 1 \/ j = k + 3 * i + 2)%nat) by lia. destruct Ej as [E | [E | E]]; rewrite E; [rewrite Ho|rewrite Ho1|rewrite Ho2]; reflexivity. }
  intros i. rewrite !(C119_exact n (k + 3 * i + 3)) by (intros; lia || (apply Hall; lia)). auto.
Qed.
Print Assumptions C119_cycle.

(** ** the scripts *)
Lemma round_nonneg z : 0 <= z -> 0 <= round53 z.
Proof. intros Hz. destruct (C119_rounding z) as (_ & H & _). specialize (H 0 ltac:(exists 0, 0; cbn; lia)). lia. Qed.
Lemma forbit_nonneg n k : 0 <= n -> Z.abs (3 * n + 1) < 2 ^ 1024 -> 0 <= value (forbit n k).
Proof.
  intros Hn Hb. induction k as [|k IH]; [exact Hn|]. destruct (C119_bounded n k Hb) as [E _]. unfold collatz_num in E. generalize dependent (forbit n (S k)). intros y E.
  destruct (forbit n k) as [z|z]; cbn [value] in IH; destruct (is_even _); cbn [halve triple_plus_one] in E.
  - unfold to_float in E. destruct (_ <? _) in E; [|discriminate]. injection E as <-. cbn [value]. apply round_nonneg, Z.div_pos; lia.
  - injection E as <-. cbn [value]. lia.
  - injection E as <-. cbn [value]. apply Z.div_pos; lia.
  - unfold to_float in E. destruct (_ <? _) in E; [|discriminate]. cbn [rbind value] in E. destruct (_ <? _) in E; [|discriminate]. injection E as <-. cbn [value]. pose proof (round_nonneg (3 * z) ltac:(lia)). apply round_nonneg. lia.
Qed.

Section Scripts.
  Context {U I BA BN : Type} (W : env Z Z num BA BN) (Hlab : e_lab W 0 = 0).
  Let F (u : U) (a : num) (_ : option (nodein I)) : res (U * num) := y <- collatz_num a ;; Ok (u, y).
  Let g : @args Z Z num U I := collatz_args.
  Lemma num_static : static g (stateless collatz_num_rule).
  Proof. repeat split. Qed.
  Lemma num_F u (x : node_ctx Z Z num I) : stateless collatz_num_rule u x = (' (u', a) <- F u (x_cur x) (x_input x) ;; Ok (u', mkOut a [] [])).
  Proof. unfold F, stateless, collatz_num_rule. destruct (collatz_num (x_cur x)); reflexivity. Qed.

  (** the rows of a trajectory of the node *)
  Lemma num_rows (traj : list (state Z Z num BA BN)) l : Forall2 (fun st a => activities W st = Ok (Some [(0, a)])) traj l -> get_activities_over_time_as_list W Z.leb traj = Ok (map (fun a => [a]) l).
  Proof.
    induction 1 as [|st a traj l Ha H IH]; [reflexivity|]. change (st :: traj) with ([st] ++ traj). rewrite (acts_list_app W Z.leb [st] traj), IH. unfold get_activities_over_time_as_list. cbn [rfold]. rewrite Ha. cbn. reflexivity.
  Qed.
  Lemma grid_ok n (ks : list nat) : 0 <= n -> Z.abs (3 * n + 1) < 2 ^ 1024 -> ks <> [] ->
    exists grid width, binarize_for_plotting (map (map value) (map (fun a => [a]) (map (forbit n) ks))) = Ok grid /\ Forall2 (fun k r => is_bits r /\ length r = width /\ number 2 r = value (forbit n k)) ks grid.
  Proof.
    intros Hn Hb Hne. destruct (C60_binarize (map (map value) (map (fun a => [a]) (map (forbit n) ks)))) as (grid & width & E & Hf & _).
    - destruct ks; [contradiction|discriminate].
    - rewrite !map_map. apply Forall_forall. intros a Ha. apply in_map_iff in Ha. destruct Ha as (k & <- & _). exists (value (forbit n k)), []. split; [reflexivity|]. apply forbit_nonneg; assumption.
    - exists grid, width. split; [exact E|]. rewrite !map_map in Hf. clear - Hf. revert grid Hf. induction ks as [|k ks IH]; intros grid Hf; inversion Hf as [|? r ? grid' Hr Hf']; subst; [constructor|]. constructor; [|apply IH; exact Hf'].
      destruct Hr as (H1 & H2 & H3). cbn in H3. injection H3 as H3. auto.
  Qed.

  Lemma timesteps_run n (T : Z) (t : nat) (u : U) k : Z.abs (3 * n + 1) < 2 ^ 1024 -> (1 <= t)%nat -> T = Z.of_nat (t + k) -> runs_to W F (timestep_input T) (Z.of_nat t) u (forbit n (t - 1)) u (map (forbit n) (seq (t - 1) (S k))).
  Proof.
    intros Hb. revert t. induction k as [|k IH]; intros t Ht ->.
    - cbn [seq map]. apply rt_stop. unfold timestep_input. destruct (Z.eqb_spec (Z.of_nat t) (Z.of_nat (t + 0))); [reflexivity|lia].
    - change (seq (t - 1) (S (S k))) with ((t - 1)%nat :: seq (S (t - 1)) (S k)). cbn [map]. eapply rt_go with (ni := None).
      + unfold timestep_input. destruct (Z.eqb_spec (Z.of_nat t) (Z.of_nat (t + S k))); [lia|reflexivity].
      + reflexivity.
      + unfold F. rewrite (proj1 (C119_bounded n (t - 1) Hb)). reflexivity.
      + replace (Z.of_nat t + 1) with (Z.of_nat (S t)) by lia. specialize (IH (S t) ltac:(lia) ltac:(lia)). replace (S t - 1)%nat with (S (t - 1)) in IH by lia. exact IH.
  Qed.

  (** collatz_conjecture_demo2.py *)
  Theorem C119_demo2 : forall fuel (u0 : U) n T, 0 <= n -> 3 * n + 1 < 2 ^ 1024 -> 1 <= T -> (Z.to_nat T <= fuel)%nat ->
    exists grid width, collatz_demo2 (I := I) W fuel u0 n T = Ok (map (fun k => [forbit n k]) (seq 0 (Z.to_nat T)), grid) /\
      Forall2 (fun k r => is_bits r /\ length r = width /\ number 2 r = value (forbit n k)) (seq 0 (Z.to_nat T)) grid.
  Proof.
    intros fuel u0 n T Hn Hb HT Hf. assert (Hb' : Z.abs (3 * n + 1) < 2 ^ 1024) by (rewrite Z.abs_eq; [exact Hb|lia]). assert (Hne : seq 0 (Z.to_nat T) <> []) by (destruct (Z.to_nat T) eqn:E; [lia|discriminate]).
    destruct (grid_ok n (seq 0 (Z.to_nat T)) Hn Hb' Hne) as (grid & width & Eg & Hg). exists grid, width. split; [|exact Hg].
    pose proof (timesteps_run n T 1 u0 (Z.to_nat T - 1) Hb' ltac:(lia) ltac:(lia)) as Hrun. replace (S (Z.to_nat T - 1)) with (Z.to_nat T) in Hrun by lia. cbn [Nat.sub] in Hrun.
    destruct (one_ok W g (stateless collatz_num_rule) F num_static num_F fuel u0 (PInt n) None (Some T) (timestep_input T) u0 _ Hlab eq_refl Hrun) as (traj & Ev & Hs); [rewrite map_length, seq_length; exact Hf|].
    unfold collatz_demo2. fold g. rewrite Ev. cbn [rbind]. rewrite (num_rows traj _ Hs). cbn [rbind]. rewrite Eg. cbn [rbind]. rewrite map_map. reflexivity.
  Qed.

  (** of a negative number the numbers are computed, but the plot raises *)
  Theorem C119_negative : forall fuel (u0 : U) n T, n < 0 -> Z.abs (3 * n + 1) < 2 ^ 1024 -> 1 <= T -> (Z.to_nat T <= fuel)%nat -> collatz_demo2 (I := I) W fuel u0 n T = Err ValueError.
  Proof.
    intros fuel u0 n T Hn Hb HT Hf. pose proof (timesteps_run n T 1 u0 (Z.to_nat T - 1) Hb ltac:(lia) ltac:(lia)) as Hrun. cbn [Nat.sub] in Hrun.
    destruct (one_ok W g (stateless collatz_num_rule) F num_static num_F fuel u0 (PInt n) None (Some T) (timestep_input T) u0 _ Hlab eq_refl Hrun) as (traj & Ev & Hs); [rewrite map_length, seq_length; lia|].
    unfold collatz_demo2. fold g. rewrite Ev. cbn [rbind]. rewrite (num_rows traj _ Hs). cbn [rbind seq map].
    match goal with |- context[binarize_for_plotting (?a :: ?post)] => change (a :: post) with ([] ++ [value (forbit n 0)] :: post) end. rewrite (proj2 (proj2 C60_raises) [] (value (forbit n 0)) [] _ Hn (Forall_nil _)). reflexivity.
  Qed.

  Lemma input_run one n k j t (u : U) : Z.abs (3 * n + 1) < 2 ^ 1024 -> value (forbit n (j + k)) = 1 -> (forall i, (i < j + k)%nat -> value (forbit n i) <> 1) ->
    runs_to W F (collatz_num_input one) t u (forbit n j) u (map (forbit n) (seq j (S k))).
  Proof.
    intros Hb. revert j t. induction k as [|k IH]; intros j t H1 Hbef.
    - rewrite Nat.add_0_r in H1. cbn [seq map]. apply rt_stop. unfold collatz_num_input. cbn. rewrite H1. reflexivity.
    - change (seq j (S (S k))) with (j :: seq (S j) (S k)). cbn [map]. eapply rt_go with (ni := Some (NVal one)).
      + unfold collatz_num_input. cbn. specialize (Hbef j ltac:(lia)). destruct (Z.eqb_spec (value (forbit n j)) 1); [contradiction|reflexivity].
      + reflexivity.
      + unfold F. rewrite (proj1 (C119_bounded n j Hb)). reflexivity.
      + apply IH; [replace (S j + k)%nat with (j + S k)%nat by lia; exact H1|intros i Hi; apply Hbef; lia].
  Qed.

  (** collatz_conjecture_demo.py: it stops at the first 1 of the numbers computed, or it repeats a cycle without a 1 for ever *)
  Theorem C119_demo : forall (u0 : U) (one : I) n, 0 <= n -> 3 * n + 1 < 2 ^ 1024 ->
    (exists k grid width, (forall fuel, (k < fuel)%nat -> collatz_demo W fuel u0 one n = Ok (map (fun k => [forbit n k]) (seq 0 (S k)), grid)) /\ value (forbit n k) = 1 /\ (forall j, (j < k)%nat -> value (forbit n j) <> 1) /\
       Forall2 (fun k r => is_bits r /\ length r = width /\ number 2 r = value (forbit n k)) (seq 0 (S k)) grid) \/
    ((forall fuel, collatz_demo W fuel u0 one n = Err OutOfFuel) /\ (forall k, value (forbit n k) <> 1) /\ exists t0 p, (1 <= p)%nat /\ forall t, (t0 <= t)%nat -> forbit n (t + p) = forbit n t).
  Proof.
    intros u0 one n Hn Hb. assert (Hb' : Z.abs (3 * n + 1) < 2 ^ 1024) by (rewrite Z.abs_eq; [exact Hb|lia]). destruct (C119_repeats n Hb') as (t0 & p & Hp & Hper).
    assert (Hfirst : forall m, (exists k, (k < m)%nat /\ value (forbit n k) = 1 /\ forall j, (j < k)%nat -> value (forbit n j) <> 1) \/ forall j, (j < m)%nat -> value (forbit n j) <> 1).
    { induction m as [|m IH]; [right; intros; lia|]. destruct IH as [(k & Hk & H)|IH]; [left; exists k; split; [lia|exact H]|]. destruct (Z.eq_dec (value (forbit n m)) 1) as [E|E]; [left; exists m; auto|].
      right. intros j Hj. destruct (Nat.eq_dec j m) as [-> | Hne]; [exact E|apply IH; lia]. }
    destruct (Hfirst (t0 + p)%nat) as [(k & _ & H1 & Hbef)|Hno].
    - left. destruct (grid_ok n (seq 0 (S k)) Hn Hb' ltac:(discriminate)) as (grid & width & Eg & Hg). exists k, grid, width. split; [|split; [exact H1|split; [exact Hbef|exact Hg]]].
      intros fuel Hf. pose proof (input_run one n k 0 1 u0 Hb' H1 Hbef) as Hrun.
      destruct (one_ok W g (stateless collatz_num_rule) F num_static num_F fuel u0 (PInt n) (Some (InputFun (collatz_num_input one))) None (collatz_num_input one) u0 _ Hlab eq_refl Hrun) as (traj & Ev & Hs); [rewrite map_length, seq_length; lia|].
      unfold collatz_demo. fold g. rewrite Ev. cbn [rbind]. rewrite (num_rows traj _ Hs). cbn [rbind]. rewrite Eg. cbn [rbind]. rewrite map_map. reflexivity.
    - right. assert (Hnever : forall k, value (forbit n k) <> 1).
      { intros k. induction k as [k IH] using lt_wf_ind. destruct (Nat.lt_ge_cases k (t0 + p)) as [Hlt|Hge]; [apply Hno, Hlt|]. replace k with ((k - p) + p)%nat by lia. rewrite Hper by lia. apply IH. lia. }
      split; [|split; [exact Hnever|exists t0, p; auto]]. intros fuel. unfold collatz_demo. fold g.
      rewrite (one_diverges W g (stateless collatz_num_rule) F num_static num_F fuel u0 (PInt n) (Some (InputFun (collatz_num_input one))) None (collatz_num_input one) (fun _ _ a => exists k, a = forbit n k) Hlab eq_refl); [reflexivity|exists 0%nat; reflexivity|].
      intros t u a [k ->]. exists u, (InVal one), (Some (NVal one)), u, (forbit n (S k)). split; [|split; [reflexivity|split; [|exists (S k); reflexivity]]].
      + unfold collatz_num_input. cbn. destruct (Z.eqb_spec (value (forbit n k)) 1); [exfalso; exact (Hnever k e)|reflexivity].
      + unfold F. rewrite (proj1 (C119_bounded n k Hb')). reflexivity.
  Qed.
End Scripts.
Print Assumptions C119_demo2.
Print Assumptions C119_negative.
Print Assumptions C119_demo.

(** the numbers of the scripts: 222, which reaches 1 after 70 steps, and 4103453, which reaches 1 after 123 steps, all of them below 2^53 *)
Example C119_ex : orbit 222 70 = 1 /\ forallb (fun j => Z.abs (orbit 222 j) <? 2 ^ 53) (seq 0 71) = true /\ orbit 4103453 123 = 1 /\ forallb (fun j => Z.abs (orbit 4103453 j) <? 2 ^ 53) (seq 0 124) = true /\ 3 * 222 + 1 < 2 ^ 1024 /\
  map (forbit 6) (seq 0 9) = [PInt 6; PFloat 3; PFloat 10; PFloat 5; PFloat 16; PFloat 8; PFloat 4; PFloat 2; PFloat 1].
Proof. do 4 (split; [vm_compute; reflexivity|]). split; [apply (Z.lt_trans _ (2 ^ 53)); [reflexivity|apply Z.pow_lt_mono_r; lia]|]. vm_compute. reflexivity. Qed.
(** a tie: 3 * (2^52 + 3) lies between two floats and goes to the even one *)
Example C119_rounding_ex : round53 (3 * (2 ^ 52 + 3)) = 3 * (2 ^ 52 + 3) - 1 /\ round53 (2 ^ 53 + 1) = 2 ^ 53 /\ round53 (2 ^ 53 + 3) = 2 ^ 53 + 4 /\ round53 (- (2 ^ 60 + 1)) = - 2 ^ 60.
Proof. vm_compute. auto. Qed.

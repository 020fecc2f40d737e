(** * C116: the substitution system demos *)
From Coq Require Import Ascii Lia.
From Verif Require Import Py PyFacts ListFacts Network Evolve SubstSpec Subst PropSubst SubstDemoSpec SubstDemos SubstDemoRun.
Open Scope string_scope.
Open Scope list_scope.
Open Scope Z_scope.

Ltac keys := intros w Hw; vm_compute in Hw; repeat (destruct Hw as [<-|Hw]; [reflexivity|]); destruct Hw.
Ltac vals := intros w y Hy; apply dget_some_in in Hy; vm_compute in Hy; repeat (destruct Hy as [Hy|Hy]; [injection Hy as <- <-; eexists; vm_compute; reflexivity|]); destruct Hy.
Lemma digits_of D l : Forall is_digit D -> Forall (fun z => In z D) l -> Forall is_digit l.
Proof. intros HD Hl. rewrite Forall_forall in *. auto. Qed.
Ltac cases H := repeat (destruct H as [<-|H]); try destruct H.

Ltac allin := repeat (apply Forall_cons; [cbn; tauto|]); apply Forall_nil.

(** ** 1: the Thue-Morse sequence *)
Definition letter1 (i : Z) : Z := if odd_ones i then 1 else 2.
Definition row1 (t : nat) : list Z := map letter1 (zrange 0 (2 ^ Z.of_nat t)).
Definition f1 (a : Z) : list Z := if a =? 2 then [2; 1] else [1; 2].
Lemma zrange_end n : 0 <= n -> zrange 0 (n + 1) = zrange 0 n ++ [n].
Proof. intros Hn. rewrite zrange_snoc by lia. replace (n + 1 - 1) with n by lia. reflexivity. Qed.
Lemma doubled m : zrange 0 (2 * Z.of_nat m) = flat_map (fun i => [2 * i; 2 * i + 1]) (zrange 0 (Z.of_nat m)).
Proof.
  induction m as [|m IH]; [reflexivity|]. replace (2 * Z.of_nat (S m)) with (2 * Z.of_nat m + 1 + 1) by lia. rewrite (zrange_end (2 * Z.of_nat m + 1)), (zrange_end (2 * Z.of_nat m)) by lia. rewrite IH. replace (Z.of_nat (S m)) with (Z.of_nat m + 1) by lia. rewrite (zrange_end (Z.of_nat m)) by lia. rewrite flat_map_app, <- app_assoc. reflexivity.
Qed.
Lemma letter1_step i : 0 <= i -> f1 (letter1 i) = [letter1 (2 * i); letter1 (2 * i + 1)].
Proof.
  intros Hi. unfold letter1, f1. destruct i as [|p|p]; [reflexivity| |lia]. change (2 * Zpos p) with (Zpos (xO p)). change (Zpos (xO p) + 1) with (Zpos (xI p)). cbn [odd_ones odd_digits]. destruct (odd_digits p); reflexivity.
Qed.
Lemma row1_step t : rewrite1 f1 (row1 t) = row1 (S t).
Proof.
  unfold row1. rewrite Nat2Z.inj_succ, Z.pow_succ_r by lia. rewrite <- (Z2Nat.id (2 ^ Z.of_nat t)) by (apply Z.pow_nonneg; lia). rewrite doubled.
  assert (Hp : forall i, In i (zrange 0 (Z.of_nat (Z.to_nat (2 ^ Z.of_nat t)))) -> 0 <= i) by (intros i Hi; apply in_zrange in Hi; lia). induction (zrange 0 _) as [|i l IH]; [reflexivity|]. cbn [map rewrite1 flat_map]. rewrite map_app, IH by (intros j Hj; apply Hp; right; assumption).
  rewrite letter1_step by (apply Hp; left; reflexivity). reflexivity.
Qed.
Theorem C116_thue_morse : forall (V BA BN I : Type) (W : env Z V Z BA BN) fuel T, (forall i, e_lab W i = Z.of_nat i) -> 1 <= T -> (Z.to_nat T < fuel)%nat ->
  subst_demo (I := I) W fuel rules1 axiom1 T = Ok (padded (first_rows (fun t => map (fun i => if odd_ones i then 1 else 2) (zrange 0 (2 ^ Z.of_nat t))) T)).
Proof.
  intros V BA BN I W fuel T Hlab HT Hf. assert (Hin : forall t, Forall (fun z => In z [1; 2]) (row1 t)) by (intros t; apply Forall_forall; intros z Hz; apply in_map_iff in Hz; destruct Hz as (i & <- & _); unfold letter1; destruct (odd_ones i); cbn; auto).
  apply (subst_demo_rows W Hlab rules1 1 (le_n 1) ltac:(discriminate) ltac:(keys) ltac:(vals) row1); try assumption.
  - intros t. apply (digits_of [1; 2]); [repeat constructor; lia|apply Hin].
  - intros t E. apply map_eq_nil in E. rewrite zrange_cons in E by (apply Z.pow_pos_nonneg; lia). discriminate.
  - intros t. rewrite (rewrite_1 rules1 [1; 2] f1); [rewrite row1_step; reflexivity| |apply Hin]. intros a Ha. cases Ha; reflexivity.
Qed.
Print Assumptions C116_thue_morse.

(** ** 2: the Fibonacci word *)
Definition f2 (a : Z) : list Z := if a =? 2 then [1] else [1; 2].
Fixpoint row2 (t : nat) : list Z := match t with O => [1] | S t => rewrite1 f2 (row2 t) end.
Lemma rewrite1_app f a b : rewrite1 f (a ++ b) = rewrite1 f a ++ rewrite1 f b.
Proof. induction a as [|x a IH]; [reflexivity|]. cbn [app rewrite1]. rewrite IH, app_assoc. reflexivity. Qed.
Lemma row2_step t : row2 (S (S t)) = row2 (S t) ++ row2 t.
Proof. induction t as [|t IH]; [reflexivity|]. change (row2 (S (S (S t)))) with (rewrite1 f2 (row2 (S (S t)))). rewrite IH at 1. rewrite rewrite1_app. reflexivity. Qed.
Lemma row2_length t : length (row2 t) = fib (t + 2) /\ length (row2 (S t)) = fib (t + 3).
Proof.
  induction t as [|t [IH1 IH2]]; [split; reflexivity|]. split; [replace (S t + 2)%nat with (t + 3)%nat by lia; assumption|]. rewrite row2_step, app_length, IH1, IH2. replace (S t + 3)%nat with (S (S (t + 2))) by lia. change (fib (S (S (t + 2)))) with (fib (S (t + 2)) + fib (t + 2))%nat. replace (t + 3)%nat with (S (t + 2)) by lia. reflexivity.
Qed.
Lemma row2_in t : Forall (fun z => In z [1; 2]) (row2 t).
Proof.
  induction t as [|t IH]; [allin|]. cbn [row2]. apply Forall_forall. intros z Hz. assert (Hg : forall l, In z (rewrite1 f2 l) -> In z [1; 2]); [|apply (Hg _ Hz)]. clear. induction l as [|a l IH]; [intros []|]. cbn [rewrite1]. rewrite in_app_iff. intros [Hz|Hz]; [|auto]. unfold f2 in Hz. destruct (a =? 2); cbn in *; intuition.
Qed.
Theorem C116_fibonacci : forall (V BA BN I : Type) (W : env Z V Z BA BN) fuel, (forall i, e_lab W i = Z.of_nat i) ->
  exists r, r 0%nat = [1] /\ r 1%nat = [1; 2] /\ (forall t, r (t + 2)%nat = r (t + 1)%nat ++ r t) /\ (forall t, length (r t) = fib (t + 2)) /\
    forall T, 1 <= T -> (Z.to_nat T < fuel)%nat -> subst_demo (I := I) W fuel rules2 axiom2 T = Ok (padded (first_rows r T)).
Proof.
  intros V BA BN I W fuel Hlab. exists row2. split; [reflexivity|]. split; [reflexivity|]. split; [intros t; rewrite !Nat.add_succ_r, Nat.add_0_r; apply row2_step|]. split; [intros t; apply row2_length|]. intros T HT Hf.
  apply (subst_demo_rows W Hlab rules2 1 (le_n 1) ltac:(discriminate) ltac:(keys) ltac:(vals) row2); try assumption.
  - intros t. apply (digits_of [1; 2]); [repeat constructor; lia|apply row2_in].
  - intros t E. destruct (row2_length t) as [El _]. rewrite E in El. cbn [length] in El. assert (Hp : forall n, (0 < fib (S n))%nat) by (induction n as [|n IHn]; [cbn; lia|]; change (fib (S (S n))) with (fib (S n) + fib n)%nat; lia). specialize (Hp (t + 1)%nat). replace (t + 2)%nat with (S (t + 1)) in El by lia. lia.
  - intros t. rewrite (rewrite_1 rules2 [1; 2] f2); [reflexivity| |apply row2_in]. intros a Ha. cases Ha; reflexivity.
Qed.
Print Assumptions C116_fibonacci.

(** ** 3 and 6: a growing repetition of 112 *)
Definition f3 (a b : Z) : list Z := if a =? 2 then if b =? 2 then [2; 2] else [1] else if b =? 2 then [2; 1] else [].
Definition row3 (t : nat) : list Z :=
  match t with
  | O => [1; 2; 2; 1]
  | S t => (if Nat.even t then [2] else [1; 2]) ++ concat (repeat [1; 1; 2] (t / 2)) ++ [1; 2; 2; 1]
  end.
Lemma rep3 q : rewrite2 f3 ([2] ++ concat (repeat [1; 1; 2] q) ++ [1; 2; 2; 1]) = [1; 2] ++ concat (repeat [1; 1; 2] q) ++ [1; 2; 2; 1] /\
  rewrite2 f3 ([1; 2] ++ concat (repeat [1; 1; 2] q) ++ [1; 2; 2; 1]) = [2] ++ concat (repeat [1; 1; 2] (S q)) ++ [1; 2; 2; 1].
Proof.
  assert (E : forall q, rewrite2 f3 ([2] ++ concat (repeat [1; 1; 2] q) ++ [1; 2; 2; 1]) = [1; 2] ++ concat (repeat [1; 1; 2] q) ++ [1; 2; 2; 1]).
  { clear. induction q as [|q IH]; [reflexivity|]. cbn [repeat concat app] in *.
    change (rewrite2 f3 (2 :: 1 :: 1 :: 2 :: concat (repeat [1; 1; 2] q) ++ [1; 2; 2; 1])) with ([1] ++ [] ++ [2; 1] ++ rewrite2 f3 (2 :: concat (repeat [1; 1; 2] q) ++ [1; 2; 2; 1])). rewrite IH. reflexivity. }
  split; [apply E|]. specialize (E q). cbn [app repeat concat] in *. change (rewrite2 f3 (1 :: 2 :: concat (repeat [1; 1; 2] q) ++ [1; 2; 2; 1])) with ([2; 1] ++ rewrite2 f3 (2 :: concat (repeat [1; 1; 2] q) ++ [1; 2; 2; 1])). rewrite E. reflexivity.
Qed.
Lemma row3_step t : rewrite2 f3 (row3 t) = row3 (S t).
Proof.
  destruct t as [|t]; [reflexivity|]. unfold row3. rewrite Nat.even_succ, <- Nat.negb_even. destruct (rep3 (t / 2)) as [E1 E2]. destruct (Nat.even t) eqn:Ev.
  - rewrite E1. cbn [negb]. apply Nat.even_spec in Ev. destruct Ev as (q & ->). replace (S (2 * q) / 2)%nat with q by (apply (Nat.div_unique _ _ _ 1); lia). replace (2 * q / 2)%nat with q by (apply (Nat.div_unique _ _ _ 0); lia). reflexivity.
  - rewrite E2. cbn [negb]. assert (Ho : Nat.odd t = true) by (rewrite <- Nat.negb_even, Ev; reflexivity). apply Nat.odd_spec in Ho. destruct Ho as (q & ->). replace (S (2 * q + 1) / 2)%nat with (S q) by (apply (Nat.div_unique _ _ _ 0); lia). replace ((2 * q + 1) / 2)%nat with q by (apply (Nat.div_unique _ _ _ 1); lia). reflexivity.
Qed.
Lemma row3_in t : Forall (fun z => In z [1; 2]) (row3 t).
Proof.
  destruct t as [|t]; [allin|]. unfold row3. apply Forall_app. split; [destruct (Nat.even t); allin|]. apply Forall_app. split; [|allin]. induction (t / 2)%nat as [|q IH]; [constructor|]. cbn [repeat concat]. apply Forall_app. split; [allin|exact IH].
Qed.
Theorem C116_repetition : forall (V BA BN I : Type) (W : env Z V Z BA BN) fuel T, (forall i, e_lab W i = Z.of_nat i) -> 1 <= T -> (Z.to_nat T < fuel)%nat ->
  subst_demo (I := I) W fuel rules3 axiom3 T = Ok (padded (first_rows (fun t => match t with O => [1; 2; 2; 1] | S t => (if Nat.even t then [2] else [1; 2]) ++ concat (repeat [1; 1; 2] (t / 2)) ++ [1; 2; 2; 1] end) T)).
Proof.
  intros V BA BN I W fuel T Hlab HT Hf.
  apply (subst_demo_rows W Hlab rules3 2 ltac:(lia) ltac:(discriminate) ltac:(keys) ltac:(vals) row3); try assumption.
  - intros t. apply (digits_of [1; 2]); [repeat constructor; lia|apply row3_in].
  - intros [|t] E; [discriminate|]. unfold row3 in E. destruct (Nat.even t); discriminate.
  - intros t. rewrite (rewrite_2 rules3 [1; 2] f3); [rewrite row3_step; reflexivity| |apply row3_in]. intros a b Ha Hb. cases Ha; cases Hb; reflexivity.
Qed.
Print Assumptions C116_repetition.

(** ** 4: exclusive or of neighbours, driven from the right *)
Definition f4 (a b : Z) : list Z :=
  if a =? 2 then (if b =? 3 then [1; 1] else if b =? 2 then [1; 2] else [2; 2]) else [if (if b =? 2 then 3 else b) =? a then 1 else 3].
Lemma combined_length s o e l : length (combined s o e l) = length l.
Proof. induction l as [|a l IH]; [reflexivity|]. cbn [combined length]. rewrite IH. reflexivity. Qed.
Definition two (l : list Z) : Prop := Forall (fun z => z = 1 \/ z = 3) l.
Lemma combined_two s o e l : (s = 1 \/ s = 3) -> (o = 1 \/ o = 3) -> two (combined s o e l).
Proof. intros Hs Ho. induction l as [|a l IH]; [constructor|]. cbn [combined]. constructor; [destruct (_ =? a); assumption|exact IH]. Qed.
Definition tail4 (t : nat) : list Z := nth (t mod 5) [[2; 2; 1]; [2; 2; 2]; [2; 1; 2]; [2; 2; 3]; [2; 1; 1]] [].
Fixpoint head4 (t : nat) : list Z :=
  match t with O => [1] | S t => combined 1 3 3 (head4 t) ++ nth (t mod 5) [[1]; [1]; []; [1]; []] [] end.
Lemma head4_two t : two (head4 t).
Proof.
  induction t as [|t IH]; [repeat constructor; lia|]. cbn [head4]. apply Forall_app. split; [apply combined_two; lia|]. assert (Hm : (t mod 5 < 5)%nat) by (apply Nat.mod_upper_bound; lia). destruct (t mod 5)%nat as [|[|[|[|[|x]]]]]; try lia; repeat constructor; lia.
Qed.
Lemma f4_head l s : two l -> (exists r, s = 2 :: r) -> rewrite2 f4 (l ++ s) = combined 1 3 3 l ++ rewrite2 f4 s.
Proof.
  intros Hl (r & ->). induction Hl as [|a l Ha Hl IH]; [reflexivity|]. destruct l as [|b l].
  - cbn [app] in *. change (rewrite2 f4 (a :: 2 :: r)) with (f4 a 2 ++ rewrite2 f4 (2 :: r)). destruct Ha as [-> | -> ]; reflexivity.
  - cbn [app] in *. change (rewrite2 f4 (a :: b :: l ++ 2 :: r)) with (f4 a b ++ rewrite2 f4 (b :: l ++ 2 :: r)). rewrite IH. inversion Hl as [|? ? Hb ?]. subst. destruct Ha as [-> | -> ], Hb as [-> | -> ]; reflexivity.
Qed.
Definition row4 (t : nat) : list Z := head4 t ++ tail4 t.
Lemma mod5_S t : ((S t) mod 5 = (t mod 5 + 1) mod 5)%nat.
Proof. rewrite Nat.add_mod_idemp_l by lia. f_equal. lia. Qed.
Lemma row4_step t : rewrite2 f4 (row4 t) = row4 (S t).
Proof.
  unfold row4. rewrite f4_head; [|apply head4_two|].
  - cbn [head4]. rewrite <- app_assoc. f_equal. unfold tail4. rewrite mod5_S. assert (Hm : (t mod 5 < 5)%nat) by (apply Nat.mod_upper_bound; lia). destruct (t mod 5)%nat as [|[|[|[|[|x]]]]]; try lia; reflexivity.
  - unfold tail4. assert (Hm : (t mod 5 < 5)%nat) by (apply Nat.mod_upper_bound; lia). destruct (t mod 5)%nat as [|[|[|[|[|x]]]]]; try lia; eexists; reflexivity.
Qed.
Lemma head4_length t : length (head4 t) = (3 * (t / 5) + nth (t mod 5) [1; 2; 3; 3; 4] 0)%nat.
Proof.
  induction t as [|t IH]; [reflexivity|]. cbn [head4]. rewrite app_length, combined_length, IH, mod5_S. assert (Hm : (t mod 5 < 5)%nat) by (apply Nat.mod_upper_bound; lia).
  assert (Hd : ((S t) / 5 = t / 5 + (if Nat.eqb (t mod 5) 4 then 1 else 0))%nat).
  { pose proof (Nat.div_mod t 5 ltac:(lia)) as E. symmetry. destruct (Nat.eqb_spec (t mod 5) 4); [apply (Nat.div_unique _ _ _ 0); lia|apply (Nat.div_unique _ _ _ (t mod 5 + 1)); lia]. }
  rewrite Hd. destruct (t mod 5)%nat as [|[|[|[|[|x]]]]]; try lia; cbn; lia.
Qed.
Lemma two_in l : two l -> Forall (fun z => In z [1; 2; 3]) l.
Proof. intros Hl. eapply Forall_impl; [|exact Hl]. intros z [-> | -> ]; cbn; auto. Qed.
Lemma row4_in t : Forall (fun z => In z [1; 2; 3]) (row4 t).
Proof.
  unfold row4. apply Forall_app. split; [apply two_in, head4_two|]. unfold tail4. assert (Hm : (t mod 5 < 5)%nat) by (apply Nat.mod_upper_bound; lia). destruct (t mod 5)%nat as [|[|[|[|[|x]]]]]; try lia; allin.
Qed.
Theorem C116_additive : forall (V BA BN I : Type) (W : env Z V Z BA BN) fuel, (forall i, e_lab W i = Z.of_nat i) ->
  exists r x, (forall T, 1 <= T -> (Z.to_nat T < fuel)%nat -> subst_demo (I := I) W fuel rules4 axiom4 T = Ok (padded (first_rows r T))) /\
    (forall t, r t = x t ++ nth (t mod 5) [[2; 2; 1]; [2; 2; 2]; [2; 1; 2]; [2; 2; 3]; [2; 1; 1]] []) /\
    x 0%nat = [1] /\ (forall t, x (S t) = combined 1 3 3 (x t) ++ nth (t mod 5) [[1]; [1]; []; [1]; []] []) /\
    (forall t, length (r (t + 5)%nat) = (length (r t) + 3)%nat) /\ (forall t, length (r (5 * t)%nat) = (3 * t + 4)%nat).
Proof.
  intros V BA BN I W fuel Hlab. exists row4, head4. split; [|split; [reflexivity|split; [reflexivity|split; [reflexivity|]]]].
  - intros T HT Hf. apply (subst_demo_rows W Hlab rules4 2 ltac:(lia) ltac:(discriminate) ltac:(keys) ltac:(vals) row4); try assumption.
    + intros t. apply (digits_of [1; 2; 3]); [repeat constructor; lia|apply row4_in].
    + intros t E. unfold row4 in E. apply app_eq_nil in E. destruct E as [E _]. pose proof (head4_length t) as El. rewrite E in El. assert (Hm : (t mod 5 < 5)%nat) by (apply Nat.mod_upper_bound; lia). destruct (t mod 5)%nat as [|[|[|[|[|y]]]]]; try lia; cbn in El; lia.
    + intros t. rewrite (rewrite_2 rules4 [1; 2; 3] f4); [rewrite row4_step; reflexivity| |apply row4_in]. intros a b Ha Hb. cases Ha; cases Hb; reflexivity.
  - assert (Hl : forall t, length (row4 t) = (3 * (t / 5) + nth (t mod 5) [4; 5; 6; 6; 7] 0)%nat).
    { intros t. unfold row4. rewrite app_length, head4_length. unfold tail4. assert (Hm : (t mod 5 < 5)%nat) by (apply Nat.mod_upper_bound; lia). destruct (t mod 5)%nat as [|[|[|[|[|y]]]]]; try lia; cbn [nth length]; lia. }
    split; intros t; rewrite !Hl.
    + replace (t + 5)%nat with (t + 1 * 5)%nat by lia. rewrite Nat.div_add, Nat.mod_add by lia. lia.
    + replace (5 * t)%nat with (0 + t * 5)%nat by lia. rewrite Nat.div_add, Nat.mod_add by lia. cbn. lia.
Qed.
Print Assumptions C116_additive.

(** ** 5: a word that grows ever more slowly *)
Definition f5 (a b : Z) : list Z :=
  if a =? 2 then (if b =? 1 then [3] else []) else if b =? 2 then [1; 2] else [if b =? a then 3 else 1].
Definition next5 (x : list Z) : list Z := (if hd 1 x =? 1 then [3] else []) ++ combined 3 1 1 x.
Fixpoint mid5 (t : nat) : list Z := match t with O => [] | S t => next5 (mid5 t) end.
Definition row5 (t : nat) : list Z := match t with O => [1; 2; 3; 2] | S t => [1; 2] ++ mid5 t ++ [1; 2] end.
Lemma mid5_two t : two (mid5 t).
Proof. destruct t as [|t]; [constructor|]. cbn [mid5]. unfold next5. apply Forall_app. split; [destruct (_ =? 1); repeat constructor; lia|apply combined_two; lia]. Qed.
Lemma f5_mid l : two l -> rewrite2 f5 (l ++ [1; 2]) = combined 3 1 1 l ++ [1; 2].
Proof.
  induction 1 as [|a l Ha Hl IH]; [reflexivity|]. destruct l as [|b l].
  - destruct Ha as [-> | -> ]; reflexivity.
  - cbn [app] in *. change (rewrite2 f5 (a :: b :: l ++ [1; 2])) with (f5 a b ++ rewrite2 f5 (b :: l ++ [1; 2])). rewrite IH. inversion Hl as [|? ? Hb ?]. subst. destruct Ha as [-> | -> ], Hb as [-> | -> ]; reflexivity.
Qed.
Lemma row5_step t : rewrite2 f5 (row5 t) = row5 (S t).
Proof.
  destruct t as [|t]; [reflexivity|]. unfold row5. cbn [mid5]. unfold next5. pose proof (mid5_two t) as Ht. pose proof (f5_mid _ Ht) as E. destruct (mid5 t) as [|a l]; [reflexivity|].
  change (rewrite2 f5 ([1; 2] ++ (a :: l) ++ [1; 2])) with ([1; 2] ++ f5 2 a ++ rewrite2 f5 ((a :: l) ++ [1; 2])). rewrite E. inversion Ht as [|? ? Ha ?]. subst. destruct Ha as [-> | -> ]; cbn [hd]; rewrite <- !app_assoc; reflexivity.
Qed.
Lemma row5_in t : Forall (fun z => In z [1; 2; 3]) (row5 t).
Proof. destruct t as [|t]; [allin|]. unfold row5. apply Forall_app. split; [allin|]. apply Forall_app. split; [apply two_in, mid5_two|allin]. Qed.
Lemma next5_length x : length (next5 x) = (length x + if Z.eqb (hd 1%Z x) 1%Z then 1 else 0)%nat.
Proof. unfold next5. rewrite app_length, combined_length. destruct (hd 1 x =? 1); cbn [length]; lia. Qed.
(** without growth the letter 1 at the end moves one place to the front at least at every step *)
Lemma reaches l : two l -> exists s, (s <= length l)%nat /\ hd 1 (Nat.iter s (combined 3 1 1) l) = 1.
Proof.
  assert (Ei : forall s a l, exists a', Nat.iter s (combined 3 1 1) (a :: l) = a' :: Nat.iter s (combined 3 1 1) l).
  { intros s a l'. induction s as [|s (a' & IH)]; [exists a; reflexivity|]. change (Nat.iter (S s) (combined 3 1 1) (a :: l')) with (combined 3 1 1 (Nat.iter s (combined 3 1 1) (a :: l'))). rewrite IH. cbn [combined]. eexists. reflexivity. }
  induction 1 as [|a l Ha Hl (s & Hs & IH)]; [exists 0%nat; split; [lia|reflexivity]|].
  destruct (Ei s a l) as (a' & E). destruct (Z.eq_dec a' 1) as [->|Hn]; [exists s; split; [cbn [length]; lia|rewrite E; reflexivity]|].
  exists (S s). split; [cbn [length]; lia|]. change (Nat.iter (S s) (combined 3 1 1) (a :: l)) with (combined 3 1 1 (Nat.iter s (combined 3 1 1) (a :: l))). rewrite E. cbn [combined hd].
  assert (Em : match Nat.iter s (combined 3 1 1) l with [] => 1 | b :: _ => b end = 1) by (destruct (Nat.iter s (combined 3 1 1) l); [reflexivity|exact IH]). rewrite Em. destruct (Z.eqb_spec 1 a'); [congruence|reflexivity].
Qed.
Lemma iter_shift (g : list Z -> list Z) s x : Nat.iter (S s) g x = Nat.iter s g (g x).
Proof. induction s as [|s IH]; [reflexivity|]. change (Nat.iter (S (S s)) g x) with (g (Nat.iter (S s) g x)). rewrite IH. reflexivity. Qed.
Lemma grows5 s : forall t, hd 1 (Nat.iter s (combined 3 1 1) (mid5 t)) = 1 -> exists s', (s' <= s)%nat /\ hd 1 (mid5 (t + s')) = 1.
Proof.
  induction s as [|s IH]; intros t E; [exists 0%nat; rewrite Nat.add_0_r; auto|]. destruct (Z.eq_dec (hd 1 (mid5 t)) 1) as [E1|E1]; [exists 0%nat; rewrite Nat.add_0_r; split; [lia|assumption]|].
  rewrite iter_shift in E. destruct (IH (S t)) as (s' & Hs & E'); [cbn [mid5]; unfold next5; destruct (Z.eqb_spec (hd 1 (mid5 t)) 1); [congruence|exact E]|]. exists (S s'). split; [lia|]. replace (t + S s')%nat with (S t + s')%nat by lia. assumption.
Qed.
Lemma mono5 t s : (length (mid5 t) <= length (mid5 (t + s)))%nat.
Proof. induction s as [|s IH]; [rewrite Nat.add_0_r; lia|]. rewrite Nat.add_succ_r. cbn [mid5]. rewrite next5_length. lia. Qed.
Theorem C116_slow : forall (V BA BN I : Type) (W : env Z V Z BA BN) fuel, (forall i, e_lab W i = Z.of_nat i) ->
  exists r x, (forall T, 1 <= T -> (Z.to_nat T < fuel)%nat -> subst_demo (I := I) W fuel rules5 axiom5 T = Ok (padded (first_rows r T))) /\
    r 0%nat = [1; 2; 3; 2] /\ (forall t, r (S t) = [1; 2] ++ x t ++ [1; 2]) /\ x 0%nat = [] /\
    (forall t, x (S t) = (if hd 1 (x t) =? 1 then [3] else []) ++ combined 3 1 1 (x t)) /\
    (forall t, (length (r t) <= length (r (t + 1)%nat) <= length (r t) + 1)%nat) /\ (forall t, (length (r (t + 2)%nat) <= length (r t) + 1)%nat) /\
    (forall t, (length (r t) < length (r (t + length (r t) - 2)%nat))%nat).
Proof.
  intros V BA BN I W fuel Hlab. exists row5, mid5. split; [|split; [reflexivity|split; [reflexivity|split; [reflexivity|split; [reflexivity|]]]]].
  - intros T HT Hf. apply (subst_demo_rows W Hlab rules5 2 ltac:(lia) ltac:(discriminate) ltac:(keys) ltac:(vals) row5); try assumption.
    + intros t. apply (digits_of [1; 2; 3]); [repeat constructor; lia|apply row5_in].
    + intros [|t]; discriminate.
    + intros t. rewrite (rewrite_2 rules5 [1; 2; 3] f5); [rewrite row5_step; reflexivity| |apply row5_in]. intros a b Ha Hb. cases Ha; cases Hb; reflexivity.
  - assert (Hl : forall t, length (row5 (S t)) = (length (mid5 t) + 4)%nat) by (intros t; unfold row5; rewrite !app_length; cbn [length]; lia).
    split; [|split].
    + intros [|t]; [cbn; lia|]. rewrite Nat.add_1_r, !Hl. cbn [mid5]. rewrite next5_length. destruct (_ =? 1); lia.
    + intros [|t]; [cbn; lia|]. replace (S t + 2)%nat with (S (S (S t))) by lia. rewrite !Hl. cbn [mid5]. rewrite !next5_length. destruct (Z.eqb_spec (hd 1 (mid5 t)) 1) as [E|E]; [|destruct (_ =? 1); lia].
      unfold next5. rewrite E. cbn. lia.
    + intros [|t]; [cbn; lia|]. rewrite Hl. replace (S t + (length (mid5 t) + 4) - 2)%nat with (S (t + length (mid5 t) + 2)) by lia. rewrite Hl.
      destruct (reaches (mid5 t) (mid5_two t)) as (s & Hs & E). destruct (grows5 s t E) as (s' & Hs' & E'). assert (Hg : (length (mid5 (t + s')) < length (mid5 (S (t + s'))))%nat) by (cbn [mid5]; rewrite next5_length, E'; cbn; lia).
      pose proof (mono5 t s') as M1. pose proof (mono5 (S (t + s')) (length (mid5 t) + 1 - s')) as M2. replace (S (t + s') + (length (mid5 t) + 1 - s'))%nat with (t + length (mid5 t) + 2)%nat in M2 by lia. lia.
Qed.
Print Assumptions C116_slow.

(** ** 7: exponential growth *)
Definition f7 (a b c : Z) : list Z :=
  if a =? 1 then (if b =? 1 then (if c =? 1 then [2; 2] else [1; 2; 1]) else (if c =? 1 then [1; 1] else []))
  else (if b =? 1 then (if c =? 1 then [2; 1; 2] else [1]) else (if c =? 1 then [2; 2] else [2; 1; 1])).
Definition row7 (t : nat) : list Z := Nat.iter t (rewrite3 f7) axiom7.
(** [n] copies of [w] side by side, with anything in between *)
Inductive copies (w : list Z) : nat -> list Z -> Prop :=
| cp_O l : copies w 0 l
| cp_S n p l : copies w n l -> copies w (S n) (p ++ w ++ l).
Lemma copies_before w n p l : copies w n l -> copies w n (p ++ l).
Proof. induction 1 as [|n q l H _]; [constructor|]. rewrite app_assoc. constructor. assumption. Qed.
Lemma copies_app w m n a b : copies w m a -> copies w n b -> copies w (m + n) (a ++ b).
Proof. intros Ha Hb. induction Ha as [a|m p a Ha IH]; [apply copies_before; assumption|]. rewrite <- !app_assoc. cbn [Nat.add]. constructor. assumption. Qed.
Lemma copies_trans v w m n l : copies v n l -> copies w m v -> copies w (n * m) l.
Proof. intros H Hv. induction H as [|n p l H IH]; [constructor|]. cbn [Nat.mul]. apply copies_before, copies_app; assumption. Qed.
Lemma copies_length w n l : copies w n l -> (n * length w <= length l)%nat.
Proof. induction 1 as [|n p l H IH]; [lia|]. rewrite !app_length. cbn [Nat.mul]. lia. Qed.
Lemma rewrite3_app f a b : exists m, rewrite3 f (a ++ b) = rewrite3 f a ++ m ++ rewrite3 f b.
Proof.
  induction a as [|x a (m & IH)]; [exists []; reflexivity|]. destruct a as [|y [|z a]].
  - destruct b as [|y [|z b]]; [exists []; reflexivity|exists []; reflexivity|]. exists (f x y z). reflexivity.
  - destruct b as [|z b]; [exists []; reflexivity|]. cbn [app] in *. exists (f x y z ++ m). change (rewrite3 f (x :: y :: z :: b)) with (f x y z ++ rewrite3 f (y :: z :: b)). rewrite IH. cbn [rewrite3 app]. rewrite <- app_assoc. reflexivity.
  - cbn [app] in *. exists m. change (rewrite3 f (x :: y :: z :: a ++ b)) with (f x y z ++ rewrite3 f (y :: z :: a ++ b)). rewrite IH. change (rewrite3 f (x :: y :: z :: a)) with (f x y z ++ rewrite3 f (y :: z :: a)). rewrite <- app_assoc. reflexivity.
Qed.
Lemma copies_step f v n l : copies v n l -> copies (rewrite3 f v) n (rewrite3 f l).
Proof.
  induction 1 as [|n p l H IH]; [constructor|]. destruct (rewrite3_app f p (v ++ l)) as (m1 & ->). destruct (rewrite3_app f v l) as (m2 & ->). rewrite app_assoc. constructor. apply copies_before. assumption.
Qed.
Fixpoint prefix (w l : list Z) : option (list Z) :=
  match w, l with [], _ => Some l | a :: w, b :: l => if a =? b then prefix w l else None | _, [] => None end.
Lemma prefix_ok w : forall l l', prefix w l = Some l' -> l = w ++ l'.
Proof. induction w as [|a w IH]; intros l l' E; [injection E as ->; reflexivity|]. destruct l as [|b l]; [discriminate|]. cbn [prefix] in E. destruct (Z.eqb_spec a b) as [->|]; [|discriminate]. cbn [app]. f_equal. apply IH. assumption. Qed.
Fixpoint greedy (fuel : nat) (w l : list Z) : nat :=
  match fuel with O => 0 | S fuel => match prefix w l with Some l' => S (greedy fuel w l') | None => match l with [] => 0 | _ :: l => greedy fuel w l end end end.
Lemma greedy_ok fuel w : forall l, copies w (greedy fuel w l) l.
Proof.
  induction fuel as [|fuel IH]; intros l; [constructor|]. cbn [greedy]. destruct (prefix w l) as [l'|] eqn:E; [apply prefix_ok in E; subst; apply (cp_S w _ []); apply IH|]. destruct l as [|a l]; [constructor|]. apply (copies_before w _ [a]). apply IH.
Qed.
Lemma row7_copies q : copies (repeat 2 15) (5 * 11 ^ q) (row7 (7 + 4 * q)).
Proof.
  induction q as [|q IH].
  - pose proof (greedy_ok 500 (repeat 2 15) (row7 7)) as H. assert (E : greedy 500 (repeat 2 15) (row7 7) = 5%nat) by (vm_compute; reflexivity). rewrite E in H. exact H.
  - replace (7 + 4 * S q)%nat with (S (S (S (S (7 + 4 * q))))) by lia. do 4 apply (copies_step f7) in IH.
    assert (Hw : copies (repeat 2 15) 11 (rewrite3 f7 (rewrite3 f7 (rewrite3 f7 (rewrite3 f7 (repeat 2 15)))))) by (pose proof (greedy_ok 400 (repeat 2 15) (rewrite3 f7 (rewrite3 f7 (rewrite3 f7 (rewrite3 f7 (repeat 2 15)))))) as H; assert (E : greedy 400 (repeat 2 15) (rewrite3 f7 (rewrite3 f7 (rewrite3 f7 (rewrite3 f7 (repeat 2 15))))) = 11%nat) by (vm_compute; reflexivity); rewrite E in H; exact H).
    rewrite Nat.pow_succ_r', (Nat.mul_comm 11), Nat.mul_assoc. exact (copies_trans _ _ _ _ _ IH Hw).
Qed.
Lemma row7_length q : (75 * 11 ^ q <= length (row7 (7 + 4 * q)))%nat.
Proof. pose proof (copies_length _ _ _ (row7_copies q)) as H. rewrite repeat_length in H. lia. Qed.
Lemma row7_ne t : row7 t <> [].
Proof.
  intros E. assert (Hs : forall s, row7 (t + s) = []) by (induction s as [|s IH]; [rewrite Nat.add_0_r; assumption|]; rewrite Nat.add_succ_r; change (row7 (S (t + s))) with (rewrite3 f7 (row7 (t + s))); rewrite IH; reflexivity).
  pose proof (row7_length t) as H. replace (7 + 4 * t)%nat with (t + (7 + 3 * t))%nat in H by lia. rewrite Hs in H. cbn [length] in H. pose proof (Nat.pow_nonzero 11 t ltac:(lia)). lia.
Qed.
Lemma row7_in t : Forall (fun z => In z [1; 2]) (row7 t).
Proof.
  induction t as [|t IH]; [allin|]. change (row7 (S t)) with (rewrite3 f7 (row7 t)). generalize (row7 t). clear. induction l as [|a l IH]; [constructor|]. destruct l as [|b [|c l]]; [constructor|constructor|]. change (rewrite3 f7 (a :: b :: c :: l)) with (f7 a b c ++ rewrite3 f7 (b :: c :: l)). apply Forall_app. split; [|exact IH].
  unfold f7. destruct (a =? 1), (b =? 1), (c =? 1); allin.
Qed.
Theorem C116_exponential : forall (V BA BN I : Type) (W : env Z V Z BA BN) fuel, (forall i, e_lab W i = Z.of_nat i) ->
  exists r, (forall T, 1 <= T -> (Z.to_nat T < fuel)%nat -> subst_demo (I := I) W fuel rules7 axiom7 T = Ok (padded (first_rows r T))) /\
    r 0%nat = [2; 1; 1; 2; 1; 2] /\ (forall t, rewrite_all rules7 3 (map dig (r t)) = Some (map dig (r (S t)))) /\ forall q, (75 * 11 ^ q <= length (r (7 + 4 * q)))%nat.
Proof.
  intros V BA BN I W fuel Hlab. exists row7.
  assert (Hstep : forall t, rewrite_all rules7 3 (map dig (row7 t)) = Some (map dig (row7 (S t)))).
  { intros t. rewrite (rewrite_3 rules7 [1; 2] f7); [reflexivity| |apply row7_in]. intros a b c Ha Hb Hc. cases Ha; cases Hb; cases Hc; reflexivity. }
  split; [|split; [reflexivity|split; [exact Hstep|exact row7_length]]]. intros T HT Hf.
  apply (subst_demo_rows W Hlab rules7 3 ltac:(lia) ltac:(discriminate) ltac:(keys) ltac:(vals) row7); try assumption.
  - intros t. apply (digits_of [1; 2]); [repeat constructor; lia|apply row7_in].
  - apply row7_ne.
Qed.
Print Assumptions C116_exponential.

(** ** The scripts' own runs *)
Example C116_thue_morse_ex : subst_demo (I := unit) Wi 10 rules1 axiom1 4 =
  Ok [[2; 0; 0; 0; 0; 0; 0; 0]; [2; 1; 0; 0; 0; 0; 0; 0]; [2; 1; 1; 2; 0; 0; 0; 0]; [2; 1; 1; 2; 1; 2; 2; 1]].
Proof. vm_compute. reflexivity. Qed.
Example C116_fibonacci_ex : subst_demo (I := unit) Wi 10 rules2 axiom2 5 =
  Ok [[1; 0; 0; 0; 0; 0; 0; 0]; [1; 2; 0; 0; 0; 0; 0; 0]; [1; 2; 1; 0; 0; 0; 0; 0]; [1; 2; 1; 1; 2; 0; 0; 0]; [1; 2; 1; 1; 2; 1; 2; 1]].
Proof. vm_compute. reflexivity. Qed.
Example C116_repetition_ex : subst_demo (I := unit) Wi 10 rules3 axiom3 4 =
  Ok [[1; 2; 2; 1; 0; 0; 0; 0]; [2; 1; 2; 2; 1; 0; 0; 0]; [1; 2; 1; 2; 2; 1; 0; 0]; [2; 1; 1; 2; 1; 2; 2; 1]].
Proof. vm_compute. reflexivity. Qed.
Example C116_additive_ex : subst_demo (I := unit) Wi 10 rules4 axiom4 6 =
  Ok [[1; 2; 2; 1; 0; 0; 0]; [3; 1; 2; 2; 2; 0; 0]; [3; 3; 1; 2; 1; 2; 0]; [1; 3; 3; 2; 2; 3; 0]; [3; 1; 1; 1; 2; 1; 1]; [3; 1; 1; 3; 2; 2; 1]].
Proof. vm_compute. reflexivity. Qed.
Example C116_slow_ex : subst_demo (I := unit) Wi 10 rules5 axiom5 7 =
  Ok [[1; 2; 3; 2; 0; 0]; [1; 2; 1; 2; 0; 0]; [1; 2; 3; 1; 2; 0]; [1; 2; 1; 1; 2; 0]; [1; 2; 3; 3; 1; 2]; [1; 2; 3; 1; 1; 2]; [1; 2; 1; 3; 1; 2]].
Proof. vm_compute. reflexivity. Qed.
Example C116_exponential_ex : subst_demo (I := unit) Wi 10 rules7 axiom7 3 =
  Ok [[2; 1; 1; 2; 1; 2; 0; 0; 0; 0; 0; 0; 0]; [2; 1; 2; 1; 2; 1; 1; 1; 1; 0; 0; 0; 0]; [1; 1; 1; 1; 1; 1; 2; 1; 2; 2; 2; 2; 2]].
Proof. vm_compute. reflexivity. Qed.

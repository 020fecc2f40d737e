(** * C38 - C40: rule tables *)
From Coq Require Import Ascii.
From Verif Require Import Py PyFacts Network Evolve Rules RulesSpec RulesProofs RuleTables TableSpec TableProofs PropEvolve.
Open Scope list_scope.
Open Scope Z_scope.

(** C38: states 0..9 *)
Theorem C38_table_rule : forall (L V I : Type) (t : table) (x : node_ctx L V Z I), is_states 10 (x_nacts x) ->
  (forall v, dget t (written (x_nacts x)) = Some v -> table_rule t x = Ok v) /\
  (dget t (written (x_nacts x)) = None -> exists m, table_rule t x = Err (Raise m)).
Proof.
  intros L V I t x Hs. unfold table_rule. rewrite (state_repr_written _ Hs). split; [intros v ->; reflexivity|intros ->; eexists; reflexivity].
Qed.

(** a random table with at most ten states answers every neighbourhood *)
Theorem C38_complete_table : forall (L V I F : Type) (quot : Z -> Z -> F) coin pick k r quiescent qdraw strong isotropic t lam q (x : node_ctx L V Z I),
  2 <= k <= 10 -> 0 <= r -> random_rule_table quot coin pick k r quiescent qdraw strong isotropic = Ok (t, lam, q) ->
  is_states k (x_nacts x) -> Z.of_nat (length (x_nacts x)) = 2 * r + 1 -> exists v, table_rule t x = Ok v /\ 0 <= v < k.
Proof.
  intros L V I F quot coin pick k r quiescent qdraw strong isotropic t lam q x Hk Hr E Hs Hl.
  assert (Hq : 0 <= match quiescent with Some q => q | None => qdraw end < k).
  { unfold random_rule_table in E. destruct (all_states k r); [|discriminate]. cbn [rbind] in E.
    destruct (Z.leb_spec 0 match quiescent with Some q => q | None => qdraw end), (Z.leb_spec match quiescent with Some q => q | None => qdraw end (k - 1)); cbn [andb negb] in E; try discriminate. lia. }
  destruct (random_rule_table_ok quot coin pick k r quiescent qdraw strong isotropic ltac:(lia) Hr Hq) as (t' & E' & _ & _ & Hk' & Hv & _).
  rewrite E in E'. injection E' as <- _ _.
  assert (Hin : In (written (x_nacts x)) (dkeys t)) by (apply Hk'; eauto). apply dmem_true in Hin. unfold dmem in Hin. destruct (dget t (written (x_nacts x))) as [v|] eqn:Ev; [|discriminate].
  exists v. split; [|eapply Hv; exact Ev]. apply (proj1 (C38_table_rule L V I t x (Forall_impl _ (fun a (Ha : 0 <= a < k) => conj (proj1 Ha) (Z.lt_le_trans _ _ _ (proj2 Ha) (proj2 Hk))) Hs))). assumption.
Qed.

(** with more than ten states every complete table misses the neighbourhood 10, ..., 10: its decimal string is twice as long as the keys *)
Theorem C38_more_than_ten_states_refuted : forall (F : Type) (quot : Z -> Z -> F) coin pick k r quiescent qdraw strong isotropic t lam q,
  11 <= k <= 36 -> 0 <= r -> random_rule_table quot coin pick k r quiescent qdraw strong isotropic = Ok (t, lam, q) ->
  exists nb, is_states k nb /\ Z.of_nat (length nb) = 2 * r + 1 /\ In (written nb) (dkeys t) /\
    forall (L V I : Type) (x : node_ctx L V Z I), x_nacts x = nb -> exists m, table_rule t x = Err (Raise m).
Proof.
  intros F quot coin pick k r quiescent qdraw strong isotropic t lam q Hk Hr E.
  assert (Hq : 0 <= match quiescent with Some q => q | None => qdraw end < k).
  { unfold random_rule_table in E. destruct (all_states k r); [|discriminate]. cbn [rbind] in E.
    destruct (Z.leb_spec 0 match quiescent with Some q => q | None => qdraw end), (Z.leb_spec match quiescent with Some q => q | None => qdraw end (k - 1)); cbn [andb negb] in E; try discriminate. lia. }
  destruct (random_rule_table_ok quot coin pick k r quiescent qdraw strong isotropic ltac:(lia) Hr Hq) as (t' & E' & _ & _ & Hk' & Hv & _).
  rewrite E in E'. injection E' as <- _ _.
  set (nb := repeat 10 (Z.to_nat (2 * r + 1))). assert (Hnb : is_states k nb /\ Z.of_nat (length nb) = 2 * r + 1).
  { split; [apply Forall_forall; intros y Hy; apply repeat_spec in Hy; lia|unfold nb; rewrite repeat_length; lia]. }
  exists nb. split; [apply Hnb|]. split; [apply Hnb|]. split; [apply Hk'; exists nb; tauto|].
  intros L V I x Ex. unfold table_rule. rewrite Ex.
  assert (Hlen : Z.of_nat (length (List.concat (map py_str nb))) = 2 * (2 * r + 1)).
  { unfold nb. replace (2 * r + 1) with (Z.of_nat (Z.to_nat (2 * r + 1))) at 2 by lia. generalize (Z.to_nat (2 * r + 1)) as m. induction m as [|m IH]; [reflexivity|].
    cbn [repeat map List.concat]. rewrite app_length. change (length (py_str 10)) with 2%nat. lia. }
  destruct (dget t (List.concat (map py_str nb))) as [v|] eqn:Ev; [|eexists; reflexivity]. exfalso.
  assert (Hin : In (List.concat (map py_str nb)) (dkeys t)) by (apply dmem_true; unfold dmem; rewrite Ev; reflexivity).
  apply Hk' in Hin. destruct Hin as (ds & _ & Hl & Eds). rewrite Eds in Hlen. unfold written in Hlen. rewrite map_length in Hlen. lia.
Qed.

(** C39, for all outcomes [coin], [pick], [qdraw] of the draws; [quot a b] is the reported a / b *)
Theorem C39_random_table : forall (F : Type) (quot : Z -> Z -> F) coin pick k r quiescent qdraw strong isotropic, 2 <= k <= 36 -> 0 <= r ->
  let q := match quiescent with Some q => q | None => qdraw end in 0 <= q < k ->
  exists t, random_rule_table quot coin pick k r quiescent qdraw strong isotropic = Ok (t, quot (k ^ (2 * r + 1) - entries_equal t q) (k ^ (2 * r + 1)), q) /\
    NoDup (dkeys t) /\ Z.of_nat (length t) = k ^ (2 * r + 1) /\
    (forall s, In s (dkeys t) <-> exists ds, is_states k ds /\ Z.of_nat (length ds) = 2 * r + 1 /\ s = written ds) /\
    (forall s v, dget t s = Some v -> 0 <= v < k) /\
    (strong = true -> forall d, 0 <= d < k -> dget t (written (repeat d (Z.to_nat (2 * r + 1)))) = Some d) /\
    (isotropic = true -> forall s, dget t s = dget t (rev s)).
Proof. intros. apply random_rule_table_ok; assumption. Qed.

Theorem C39_bad_quiescent : forall (F : Type) (quot : Z -> Z -> F) coin pick k r q qdraw strong isotropic, 2 <= k <= 36 -> 0 <= r -> q < 0 \/ k <= q ->
  exists m, random_rule_table quot coin pick k r (Some q) qdraw strong isotropic = Err (Raise m).
Proof.
  intros F quot coin pick k r q qdraw strong isotropic Hk Hr Hq. destruct (all_states_spec k r Hk Hr) as (ss & E & _). unfold random_rule_table. rewrite E. cbn [rbind].
  destruct (Z.leb_spec 0 q), (Z.leb_spec q (k - 1)); cbn [andb negb]; try (eexists; reflexivity); lia.
Qed.

(** C40. [lam t] is the value the code computes for the lambda of [t]; below, [walk] lists the changes made. *)
Theorem C40_walk : forall (F : Type) (quot : Z -> Z -> F) flt feq pick fuel t target k r q strong isotropic, 2 <= k -> (length t < fuel)%nat ->
  exists t', table_walk_through quot flt feq pick fuel t target k r q strong isotropic = Ok (t', lam quot k r q t') /\
    ((feq (lam quot k r q t) target = true \/ flt target (lam quot k r q t) = false /\ flt (lam quot k r q t) target = false) /\ t' = t \/
     flt target (lam quot k r q t) = true /\
       walk dget strong isotropic (fun t => flt target (lam quot k r q t) = true) (fun v => v <> q) (fun v => v = q) t t' /\
       entries_equal t q <= entries_equal t' q /\
       (flt target (lam quot k r q t') = false \/ forall s, ~ admissible dget strong (fun v => v <> q) t' s) \/
     flt (lam quot k r q t) target = true /\
       walk dget strong isotropic (fun t => flt (lam quot k r q t) target = true) (fun v => v = q) (fun v => 0 <= v < k /\ v <> q) t t' /\
       entries_equal t' q <= entries_equal t q /\
       (flt (lam quot k r q t') target = false \/ forall s, ~ admissible dget strong (fun v => v = q) t' s)).
Proof.
  intros F quot flt feq pick fuel t target k r q strong isotropic Hk Hf. pose proof (entries_bounds t q) as Hb.
  unfold table_walk_through. rewrite !actual_lambda_lam. destruct (feq (lam quot k r q t) target) eqn:Ee; [exists t; split; [reflexivity|left; auto]|].
  destruct (flt target (lam quot k r q t)) eqn:Egt.
  - destruct (reduce_ok quot flt feq pick k r q strong isotropic target fuel 0 t ltac:(lia) ltac:(lia)) as (t' & E & Hw & He & Hs). rewrite E. cbn [rbind]. rewrite actual_lambda_lam.
    exists t'. split; [reflexivity|]. right. left. auto.
  - destruct (flt (lam quot k r q t) target) eqn:Elt.
    + destruct (increase_ok quot flt feq pick k r q strong isotropic target Hk fuel 0 t ltac:(lia) ltac:(lia)) as (t' & E & Hw & He & Hs). rewrite E. cbn [rbind]. rewrite actual_lambda_lam.
      exists t'. split; [reflexivity|]. right. right. auto 6.
    + exists t. cbn [rbind]. rewrite actual_lambda_lam. split; [reflexivity|]. left. auto.
Qed.

(** what the walk keeps *)
Theorem C40_invariants : forall (F : Type) (quot : Z -> Z -> F) flt feq pick fuel t target k r q strong isotropic t' l, 2 <= k -> (length t < fuel)%nat ->
  table_walk_through quot flt feq pick fuel t target k r q strong isotropic = Ok (t', l) ->
  l = quot (k ^ (2 * r + 1) - entries_equal t' q) (k ^ (2 * r + 1)) /\
  ((isotropic = true -> forall s, In s (dkeys t) -> In (rev s) (dkeys t)) -> dkeys t' = dkeys t) /\
  (strong = true -> forall s, uniform s -> dget t' s = dget t s) /\
  (isotropic = true -> (forall s, dget t s = dget t (rev s)) -> forall s, dget t' s = dget t' (rev s)) /\
  (0 <= q < k -> (forall s v, dget t s = Some v -> 0 <= v < k) -> forall s v, dget t' s = Some v -> 0 <= v < k).
Proof.
  intros F quot flt feq pick fuel t target k r q strong isotropic t' l Hk Hf E.
  destruct (C40_walk F quot flt feq pick fuel t target k r q strong isotropic Hk Hf) as (t1 & E1 & Hc). rewrite E in E1. injection E1 as -> ->.
  split; [reflexivity|]. destruct Hc as [[_ ->]|[(_ & Hw & _)|(_ & Hw & _)]]; [tauto|..].
  - split; [apply (walk_keys _ _ _ _ _ _ _ Hw)|]. split; [apply (walk_uniform _ _ _ _ _ _ _ Hw)|]. split; [apply (walk_isotropic _ _ _ _ _ _ _ Hw)|].
    intros Hq. apply (walk_values _ _ _ _ _ _ _ _ Hw). intros v ->. assumption.
  - split; [apply (walk_keys _ _ _ _ _ _ _ Hw)|]. split; [apply (walk_uniform _ _ _ _ _ _ _ Hw)|]. split; [apply (walk_isotropic _ _ _ _ _ _ _ Hw)|].
    intros Hq. apply (walk_values _ _ _ _ _ _ _ _ Hw). intros v [Hv _]. assumption.
Qed.

(** lambda only moves towards the target: with a division that is monotone in the numerator (as rounded division is) and an asymmetric order,
    it never rises when it started above the target and never falls when it started below *)
Theorem C40_towards_target : forall (F : Type) (quot : Z -> Z -> F) flt feq pick fuel t target k r q strong isotropic t' l, 2 <= k -> (length t < fuel)%nat ->
  (forall a b, a <= b -> flt (quot b (k ^ (2 * r + 1))) (quot a (k ^ (2 * r + 1))) = false) -> (forall x y, flt x y = true -> flt y x = false) ->
  table_walk_through quot flt feq pick fuel t target k r q strong isotropic = Ok (t', l) ->
  (flt target (lam quot k r q t) = true -> flt (lam quot k r q t) l = false) /\
  (flt (lam quot k r q t) target = true -> flt l (lam quot k r q t) = false).
Proof.
  intros F quot flt feq pick fuel t target k r q strong isotropic t' l Hk Hf Hm Has E.
  destruct (C40_walk F quot flt feq pick fuel t target k r q strong isotropic Hk Hf) as (t1 & E1 & Hc). rewrite E in E1. injection E1 as -> ->.
  assert (Hself : forall x, flt (quot x (k ^ (2 * r + 1))) (quot x (k ^ (2 * r + 1))) = false) by (intros x; apply Hm; lia).
  destruct Hc as [[_ ->]|[(Hgt & Hw & He & _)|(Hlt & Hw & He & _)]].
  - unfold lam. split; intros _; apply Hself.
  - split; intros Hx; [unfold lam; apply Hm; lia|]. apply Has in Hx. congruence.
  - split; intros Hx; [apply Has in Hx; congruence|]. unfold lam. apply Hm. lia.
Qed.

Print Assumptions C38_table_rule.
Print Assumptions C38_complete_table.
Print Assumptions C38_more_than_ten_states_refuted.
Print Assumptions C39_random_table.
Print Assumptions C39_bad_quiescent.
Print Assumptions C40_walk.
Print Assumptions C40_invariants.
Print Assumptions C40_towards_target.

(** ** Examples; lambda as an exact fraction, compared by cross multiplication *)
Definition frac (a b : Z) : Z * Z := (a, b).
Definition frac_lt (x y : Z * Z) : bool := fst x * snd y <? fst y * snd x.
Definition frac_eq (x y : Z * Z) : bool := fst x * snd y =? fst y * snd x.
Definition alternate (i : nat) : bool := Nat.eqb (i mod 3) 0.
Definition spread (i : nat) : nat := (7 * i + 3)%nat.
Notation txt s := (list_ascii_of_string s).

Example C38_nonvacuous : exists t lam q, random_rule_table frac alternate spread 3 1 (Some 1) 0 true true = Ok (t, lam, q) /\
  (forall x : ctx0, x_nacts x = [2; 0; 1] -> exists v, table_rule t x = Ok v) /\ lam = (24, 27).
Proof.
  destruct (C39_random_table _ frac alternate spread 3 1 (Some 1) 0 true true ltac:(lia) ltac:(lia) ltac:(lia)) as (t & E & _).
  exists t. eexists. eexists. split; [exact E|]. assert (Et : exists t' q', random_rule_table frac alternate spread 3 1 (Some 1) 0 true true = Ok (t', (24, 27), q')) by (eexists; eexists; vm_compute; reflexivity).
  destruct Et as (t' & q' & Et). split.
  - intros x Hx. destruct (C38_complete_table Z Z Z (Z * Z) frac alternate spread 3 1 (Some 1) 0 true true _ _ _ x ltac:(lia) ltac:(lia) E) as (v & Ev & _); [rewrite Hx; repeat constructor; lia|rewrite Hx; reflexivity|]. eauto.
  - congruence.
Qed.

(** k = 11, r = 0: the table has the key "A", the rule looks for "10" *)
Theorem C38_refuted_instance : exists t lam q, random_rule_table frac alternate spread 11 0 (Some 0) 0 false false = Ok (t, lam, q) /\
  dget t (txt "A") <> None /\ dget t (txt "10") = None /\ length t = 11%nat.
Proof. eexists. eexists. eexists. split; [vm_compute; reflexivity|]. split; [vm_compute; discriminate|]. split; reflexivity. Qed.

Example C39_nonvacuous : exists t, random_rule_table frac alternate spread 2 1 None 0 true true = Ok (t, (5, 8), 0) /\
  map snd t = [0; 1; 1; 0; 1; 1; 0; 1] /\ map fst t = map (fun s => txt s) ["000"; "001"; "010"; "011"; "100"; "101"; "110"; "111"]%string.
Proof. eexists. split; [vm_compute; reflexivity|]. split; reflexivity. Qed.

(** from 4/8 down to the target 1/8 and up to 6/8 *)
Definition t40 : table := combine (map (fun s => txt s) ["000"; "001"; "010"; "011"; "100"; "101"; "110"; "111"]%string) [0; 1; 1; 0; 1; 0; 0; 1].

Example C40_nonvacuous :
  (exists t, table_walk_through frac frac_lt frac_eq spread 9 t40 (2, 8) 2 1 0 true true = Ok (t, (2, 8)) /\ (forall s, In s (dkeys t40) -> In (rev s) (dkeys t40)) /\ map snd t <> map snd t40) /\
  (exists t, table_walk_through frac frac_lt frac_eq spread 9 t40 (6, 8) 2 1 0 true true = Ok (t, (6, 8))) /\
  (forall a b, a <= b -> frac_lt (frac b (2 ^ (2 * 1 + 1))) (frac a (2 ^ (2 * 1 + 1))) = false) /\ (forall x y, frac_lt x y = true -> frac_lt y x = false).
Proof.
  split; [eexists; split; [vm_compute; reflexivity|split]|split; [eexists; vm_compute; reflexivity|split]].
  - intros s Hs. cbn in Hs. repeat (destruct Hs as [<-|Hs]; [cbn; tauto|]). destruct Hs.
  - vm_compute. discriminate.
  - intros a b Hab. unfold frac_lt, frac. cbn [fst snd]. apply Z.ltb_ge. change (2 ^ (2 * 1 + 1)) with 8. lia.
  - intros x y E. unfold frac_lt in *. apply Z.ltb_lt in E. apply Z.ltb_ge. lia.
Qed.

(** the mirror image of a state that is not a key is added as a new key *)
Theorem C40_keys_need_mirror_images_refuted : exists t t' l, table_walk_through frac frac_lt frac_eq spread 9 t (0, 8) 2 1 0 false true = Ok (t', l) /\ dkeys t' <> dkeys t.
Proof. exists [(txt "001", 1)]. eexists. eexists. split; [vm_compute; reflexivity|]. vm_compute. discriminate. Qed.

(** with one state there is no other value to move to *)
Theorem C40_one_state_raises_refuted : exists t, table_walk_through frac frac_lt frac_eq spread 9 t (1, 1) 1 0 0 false false = Err IndexError.
Proof. exists [(txt "0", 0)]. vm_compute. reflexivity. Qed.

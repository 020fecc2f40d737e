(** No rule of bounded radius classifies densities on large rings (Land and Belew 1995), with an explicit bound. *)
From Verif Require Import Py PyFacts ListFacts RulesSpec CaSpec CaNets EcaSpec HopfieldProofs FredkinProofs DensitySpec.
Open Scope list_scope.
Open Scope Z_scope.

Definition periodic (n : Z) (s : Z -> Z) : Prop := forall z, s (z + n) = s z.
Definition bits (s : Z -> Z) : Prop := forall z, bit (s z).
(** the global map on all integers *)
Definition gmap (r : Z) (f : list Z -> Z) (s : Z -> Z) : Z -> Z := fun c => f (map (fun o => s (c + o)) (zrange (- r) (r + 1))).
Definition rule (r : Z) (f : list Z -> Z) : Prop := forall l, length l = Z.to_nat (2 * r + 1) -> is_bits l -> bit (f l).

Lemma periodic_mul n s k z : periodic n s -> s (z + n * k) = s z.
Proof.
  intros Hp. assert (Hn : forall j : nat, forall z, s (z + n * Z.of_nat j) = s z).
  { induction j as [|j IH]; intros y; [f_equal; lia|]. replace (y + n * Z.of_nat (S j)) with ((y + n * Z.of_nat j) + n) by lia. rewrite Hp. apply IH. }
  destruct (Z_le_gt_dec 0 k) as [Hk|Hk].
  - replace k with (Z.of_nat (Z.to_nat k)) by lia. apply Hn.
  - rewrite <- (Hn (Z.to_nat (- k)) (z + n * k)). f_equal. rewrite Z2Nat.id by lia. ring.
Qed.
Lemma periodic_mod n s z : 0 < n -> periodic n s -> s (z mod n) = s z.
Proof. intros Hn Hp. rewrite (Z.div_mod z n) at 2 by lia. rewrite Z.add_comm. symmetry. apply periodic_mul. assumption. Qed.
Lemma count_ext n s s' : (forall v, 0 <= v < n -> s v = s' v) -> count n s = count n s'.
Proof. intros E. apply zsum_ext. intros v Hv. apply in_zrange in Hv. apply E. lia. Qed.
Lemma count_add n s s' : count n (fun z => s z + s' z) = count n s + count n s'.
Proof. apply zsum_plus. Qed.
Lemma zsum_app l l' : zsum (l ++ l') = zsum l + zsum l'.
Proof. induction l as [|a l IH]; [reflexivity|]. cbn [app]. rewrite !zsum_cons, IH. lia. Qed.
Lemma count_const n a : 0 <= n -> count n (fun _ => a) = n * a.
Proof.
  intros Hn. unfold count. assert (G : forall l : list Z, zsum (map (fun _ => a) l) = Z.of_nat (length l) * a) by (induction l as [|x l IH]; [reflexivity|]; cbn [map length]; rewrite zsum_cons, IH; lia).
  rewrite G, length_zrange. rewrite Z.sub_0_r, Z2Nat.id by lia. reflexivity.
Qed.
Lemma count_le n s s' : (forall v, 0 <= v < n -> s v <= s' v) -> count n s <= count n s'.
Proof.
  intros E. unfold count. assert (G : forall l, (forall v, In v l -> s v <= s' v) -> zsum (map s l) <= zsum (map s' l)).
  { induction l as [|x l IH]; intros Hl; [cbn; lia|]. cbn [map]. rewrite !zsum_cons. specialize (Hl x (or_introl eq_refl)) as Hx. specialize (IH (fun v Hv => Hl v (or_intror Hv))). lia. }
  apply G. intros v Hv. apply in_zrange in Hv. apply E. lia.
Qed.
Lemma count_shift n s a : 0 < n -> periodic n s -> count n (fun z => s (z + a)) = count n s.
Proof.
  intros Hn Hp.
  assert (H1 : forall s, periodic n s -> count n (fun z => s (z + 1)) = count n s).
  { intros t Ht. unfold count. rewrite <- (map_map (fun z => z + 1) t). assert (E : map (fun z => z + 1) (zrange 0 n) = zrange 1 (n + 1)).
    { unfold zrange. rewrite !Z.sub_0_r. replace (n + 1 - 1) with n by lia. rewrite map_map. apply map_ext. intros i. lia. }
    rewrite E. rewrite (zrange_cons 0 n) by lia. cbn [map]. rewrite zsum_cons. replace (0 + 1) with 1 by lia. rewrite (zrange_snoc 1 (n + 1)) by lia. replace (n + 1 - 1) with n by lia. rewrite map_app, zsum_app. cbn [map]. rewrite zsum_cons. cbn. rewrite <- (Ht 0). replace (0 + n) with n by lia. lia. }
  assert (Hj : forall j : nat, forall s, periodic n s -> count n (fun z => s (z + Z.of_nat j)) = count n s).
  { induction j as [|j IH]; intros t Ht; [apply count_ext; intros v _; f_equal; lia|]. rewrite <- (H1 t Ht). rewrite <- (IH (fun z => t (z + 1))).
    - apply count_ext. intros v _. f_equal. lia.
    - intros z. replace (z + n + 1) with ((z + 1) + n) by lia. apply Ht. }
  rewrite <- (Hj (Z.to_nat (a mod n)) s Hp). apply count_ext. intros v _. pose proof (Z.mod_pos_bound a n Hn). rewrite Z2Nat.id by lia.
  rewrite (Z.div_mod a n) at 1 by lia. replace (v + (n * (a / n) + a mod n)) with ((v + a mod n) + n * (a / n)) by lia. apply periodic_mul. assumption.
Qed.

Lemma gmap_ext r f s s' c : (forall z, s z = s' z) -> gmap r f s c = gmap r f s' c.
Proof. intros E. unfold gmap. f_equal. apply map_ext. intros o. apply E. Qed.
Lemma gmap_periodic n r f s : periodic n s -> periodic n (gmap r f s).
Proof. intros Hp z. unfold gmap. f_equal. apply map_ext. intros o. replace (z + n + o) with ((z + o) + n) by lia. apply Hp. Qed.
Lemma gmap_bits r f s : 0 <= r -> rule r f -> bits s -> bits (gmap r f s).
Proof.
  intros Hr Hf Hb z. apply Hf.
  - rewrite map_length, length_zrange. f_equal. lia.
  - apply Forall_forall. intros a Ha. apply in_map_iff in Ha. destruct Ha as (o & <- & _). apply Hb.
Qed.
Lemma gmap_shift r f s a c : gmap r f (fun z => s (z + a)) c = gmap r f s (c + a).
Proof. unfold gmap. f_equal. apply map_ext. intros o. f_equal. lia. Qed.

(** a single one at [q] *)
Definition single (n q : Z) : Z -> Z := fun z => if (z - q) mod n =? 0 then 1 else 0.
Lemma single_periodic n q : 0 < n -> periodic n (single n q).
Proof. intros Hn z. unfold single. replace (z + n - q) with ((z - q) + 1 * n) by lia. rewrite Z.mod_add by lia. reflexivity. Qed.
Lemma single_bits n q : bits (single n q).
Proof. intros z. unfold single, bit. destruct (_ =? 0); auto. Qed.
Lemma single_shift n q z : single n q z = single n 0 (z + - q).
Proof. unfold single. replace (z + - q - 0) with (z - q) by lia. reflexivity. Qed.
Lemma count_single n q : 0 < n -> count n (single n q) = 1.
Proof.
  intros Hn. rewrite (count_ext n _ (fun z => single n 0 (z + - q))) by (intros; apply single_shift). rewrite (count_shift n (single n 0)) by (try apply single_periodic; assumption).
  unfold count. rewrite (zsum_single (single n 0) (zrange 0 n) 0).
  - unfold single. rewrite Z.sub_0_r, Z.mod_0_l by lia. reflexivity.
  - apply NoDup_zrange.
  - apply in_zrange. lia.
  - intros y Hy Hne. apply in_zrange in Hy. unfold single. rewrite Z.sub_0_r, Z.mod_small by lia. destruct (Z.eqb_spec y 0); [contradiction|reflexivity].
Qed.
Lemma is_single n s : 0 < n -> periodic n s -> bits s -> count n s = 1 -> exists q, forall z, s z = single n q z.
Proof.
  intros Hn Hp Hb Hc. assert (Hex : exists q, 0 <= q < n /\ s q = 1).
  { destruct (existsb (fun q => s q =? 1) (zrange 0 n)) eqn:E.
    - apply existsb_exists in E. destruct E as (q & Hq & Eq). apply in_zrange in Hq. apply Z.eqb_eq in Eq. exists q. split; [lia|assumption].
    - exfalso. assert (Hz : count n s = 0); [|lia]. apply zsum_none. intros y Hy. destruct (Hb y) as [Hy0|Hy1]; [assumption|]. exfalso.
      assert (existsb (fun q => s q =? 1) (zrange 0 n) = true); [|congruence]. apply existsb_exists. exists y. split; [assumption|]. apply Z.eqb_eq. assumption. }
  destruct Hex as (q & Hq & Eq). exists q.
  assert (Hin : forall z, 0 <= z < n -> s z = single n q z).
  { intros z Hz. destruct (Z.eq_dec z q) as [->|Hne]; [rewrite Eq; unfold single; rewrite Z.sub_diag, Z.mod_0_l by lia; reflexivity|].
    assert (Es : single n q z = 0).
    { unfold single. destruct (Z.eqb_spec ((z - q) mod n) 0) as [Em|]; [|reflexivity]. exfalso. apply Z.mod_divide in Em; [|lia]. destruct Em as [k Ek]. assert (k = 0) by nia. subst k. lia. }
    rewrite Es. destruct (Hb z) as [Hz0|Hz1]; [assumption|]. exfalso.
    assert (2 <= count n s); [|lia]. transitivity (count n (fun y => single n q y + single n z y)); [rewrite count_add, !count_single by assumption; lia|].
    apply count_le. intros v Hv. unfold single. destruct (Z.eqb_spec ((v - q) mod n) 0) as [E1|_], (Z.eqb_spec ((v - z) mod n) 0) as [E2|_].
    - exfalso. apply Z.mod_divide in E1; [|lia]. apply Z.mod_divide in E2; [|lia]. destruct E1 as [k1 E1], E2 as [k2 E2]. assert (k1 = 0) by nia. assert (k2 = 0) by nia. subst. lia.
    - apply Z.mod_divide in E1; [|lia]. destruct E1 as [k1 E1]. assert (k1 = 0) by nia. assert (v = q) by lia. subst. rewrite Eq. lia.
    - apply Z.mod_divide in E2; [|lia]. destruct E2 as [k2 E2]. assert (k2 = 0) by nia. assert (v = z) by lia. subst. rewrite Hz1. lia.
    - destruct (Hb v) as [-> | ->]; lia. }
  intros z. rewrite <- (periodic_mod n s z Hn Hp), <- (periodic_mod n (single n q) z Hn (single_periodic n q Hn)). apply Hin. apply Z.mod_pos_bound. assumption.
Qed.

Section Preserve.
  Context (n m r : Z) (f : list Z -> Z).
  Hypothesis Hnm : n = 2 * m + 1.
  Hypothesis Hr : 0 <= r.
  Hypothesis Hm1 : 1 <= m.
  Hypothesis Hbig : 2 * r * (2 * r + 3) <= m.
  Hypothesis Hf : rule r f.
  Notation F := (gmap r f).
  Hypothesis Hkeep : forall s, periodic n s -> bits s -> (count n s <= m -> count n (F s) <= m) /\ (m + 1 <= count n s -> m + 1 <= count n (F s)).

  Lemma const_map a c : bit a -> F (fun _ => a) c = a.
  Proof.
    intros Ha. assert (Hb : bits (F (fun _ => a))) by (apply gmap_bits; [assumption|assumption|intros z; assumption]).
    assert (Hc : forall z, F (fun _ => a) z = F (fun _ => a) 0) by (intros z; reflexivity). rewrite Hc.
    destruct (Hkeep (fun _ => a)) as [K0 K1]; [intros z; reflexivity|intros z; assumption|]. rewrite (count_ext n (F (fun _ => a)) (fun _ => F (fun _ => a) 0)) in K0, K1 by (intros v _; apply Hc). rewrite !count_const in K0, K1 by lia.
    destruct (Hb 0) as [E|E]; rewrite E in *; destruct Ha as [-> | ->]; try reflexivity; exfalso; lia.
  Qed.

  (** an isolated one adds its own image *)
  Lemma add_single s q c : periodic n s -> (forall o, - (2 * r) <= o <= 2 * r -> s (q + o) = 0) -> F (fun z => s z + single n q z) c = F s c + F (single n q) c.
  Proof.
    intros Hp Hz. destruct (existsb (fun o => (c + o - q) mod n =? 0) (zrange (- r) (r + 1))) eqn:E.
    - apply existsb_exists in E. destruct E as (o & Ho & Eo). apply in_zrange in Ho. apply Z.eqb_eq in Eo. apply Z.mod_divide in Eo; [|lia]. destruct Eo as [k Ek].
      assert (Hw : forall o', In o' (zrange (- r) (r + 1)) -> s (c + o') = 0).
      { intros o' Ho'. apply in_zrange in Ho'. replace (c + o') with ((q + (o' - o)) + n * k) by lia. rewrite periodic_mul by assumption. apply Hz. lia. }
      assert (E0 : F s c = 0). { unfold gmap. rewrite (map_ext_in _ (fun _ => 0)) by exact Hw. apply (const_map 0 c). left. reflexivity. }
      rewrite E0, Z.add_0_l. unfold gmap. f_equal. apply map_ext_in. intros o' Ho'. rewrite (Hw o' Ho'). reflexivity.
    - assert (Hw : forall o', In o' (zrange (- r) (r + 1)) -> single n q (c + o') = 0).
      { intros o' Ho'. unfold single. destruct (Z.eqb_spec ((c + o' - q) mod n) 0) as [Em|]; [|reflexivity]. exfalso. assert (existsb (fun o => (c + o - q) mod n =? 0) (zrange (- r) (r + 1)) = true); [|congruence]. apply existsb_exists. exists o'. split; [assumption|]. apply Z.eqb_eq. assumption. }
      assert (E0 : F (single n q) c = 0). { unfold gmap. rewrite (map_ext_in _ (fun _ => 0)) by exact Hw. apply (const_map 0 c). left. reflexivity. }
      rewrite E0, Z.add_0_r. unfold gmap. f_equal. apply map_ext_in. intros o' Ho'. rewrite (Hw o' Ho'). apply Z.add_0_r.
  Qed.

  Definition image1 : Z := count n (F (single n 0)).
  Lemma image_single q : count n (F (single n q)) = image1.
  Proof.
    unfold image1. rewrite <- (count_shift n (F (single n 0)) (- q)) by (try apply gmap_periodic, single_periodic; lia). apply count_ext. intros v _. rewrite <- (gmap_shift r f (single n 0) (- q) v). apply gmap_ext. intros z. apply single_shift.
  Qed.

  (** a block of [p] ones followed by [j] isolated ones *)
  Definition block (p : Z) : Z -> Z := fun z => if z mod n <? p then 1 else 0.
  Fixpoint dotted (p : Z) (j : nat) : Z -> Z := match j with O => block p | S i => fun z => dotted p i z + single n (p - 1 + (2 * r + 1) * Z.of_nat (S i)) z end.

  Lemma block_periodic p : periodic n (block p).
  Proof. intros z. unfold block. replace (z + n) with (z + 1 * n) by lia. rewrite Z.mod_add by lia. reflexivity. Qed.
  Lemma dotted_periodic p j : periodic n (dotted p j).
  Proof. induction j as [|i IH]; cbn [dotted]; [apply block_periodic|]. intros z. rewrite IH, single_periodic by lia. reflexivity. Qed.
  Lemma dotted_zero p j z : 0 <= p -> p - 1 + (2 * r + 1) * Z.of_nat j < z -> p <= z < n -> dotted p j z = 0.
  Proof.
    intros Hp0. induction j as [|i IH]; cbn [dotted]; intros Hlt Hz.
    - unfold block. rewrite Z.mod_small by lia. destruct (Z.ltb_spec z p); [lia|reflexivity].
    - rewrite IH by nia. unfold single. rewrite Z.mod_small by nia. destruct (Z.eqb_spec (z - (p - 1 + (2 * r + 1) * Z.of_nat (S i))) 0); [lia|reflexivity].
  Qed.
  Lemma count_block p : 0 <= p <= n -> count n (block p) = p.
  Proof.
    intros Hp. unfold count. rewrite (zrange_split 0 p n) by lia. rewrite map_app, zsum_app. rewrite (zsum_ext (block p) (fun _ => 1) (zrange 0 p)), (zsum_ext (block p) (fun _ => 0) (zrange p n)).
    - assert (E := count_const p 1 ltac:(lia)). unfold count in E. rewrite E. rewrite (zsum_none (fun _ => 0)) by auto. lia.
    - intros z Hz. apply in_zrange in Hz. unfold block. rewrite Z.mod_small by lia. destruct (Z.ltb_spec z p); [lia|reflexivity].
    - intros z Hz. apply in_zrange in Hz. unfold block. rewrite Z.mod_small by lia. destruct (Z.ltb_spec z p); [reflexivity|lia].
  Qed.

  Lemma dotted_facts p j : 0 <= p -> p - 1 + (2 * r + 1) * Z.of_nat j + 2 * r <= n - 1 ->
    bits (dotted p j) /\ count n (dotted p j) = p + Z.of_nat j /\ count n (F (dotted p j)) = count n (F (block p)) + Z.of_nat j * image1.
  Proof.
    intros Hp. induction j as [|i IH]; intros Hj; cbn [dotted].
    - split; [intros z; unfold block, bit; destruct (_ <? _); auto|]. split; [rewrite count_block by lia; lia|lia].
    - destruct IH as (B & C & D); [nia|]. set (q := p - 1 + (2 * r + 1) * Z.of_nat (S i)) in *.
      assert (Hz : forall o, - (2 * r) <= o <= 2 * r -> dotted p i (q + o) = 0) by (intros o Ho; apply dotted_zero; unfold q in *; nia).
      split; [|split].
      + intros z. unfold single. destruct (Z.eqb_spec ((z - q) mod n) 0) as [E|_]; [|rewrite Z.add_0_r; apply B].
        apply Z.mod_divide in E; [|lia]. destruct E as [k E]. replace z with ((q + 0) + n * k) by lia. rewrite periodic_mul by apply dotted_periodic. rewrite Hz by lia. right. reflexivity.
      + rewrite count_add, C, count_single by lia. lia.
      + rewrite (count_ext n _ (fun c => F (dotted p i) c + F (single n q) c)) by (intros v _; apply add_single; [apply dotted_periodic|assumption]). rewrite count_add, D, image_single. lia.
  Qed.

  Lemma image_block p : 0 <= p <= n -> p - 2 * r <= count n (F (block p)).
  Proof.
    intros Hp. assert (Hb : bits (F (block p))) by (apply gmap_bits; [assumption|assumption|intros z; unfold block, bit; destruct (_ <? _); auto]).
    destruct (Z_le_gt_dec (p - 2 * r) 0) as [Hle|Hgt].
    - assert (0 <= count n (F (block p))); [|lia]. rewrite <- (Z.mul_0_r n), <- (count_const n 0) by lia. apply count_le. intros v _. destruct (Hb v) as [-> | ->]; lia.
    - transitivity (count n (fun z => if (r <=? z) && (z <? p - r) then 1 else 0)).
      + unfold count. rewrite (zrange_split 0 r n), (zrange_split r (p - r) n) by lia. rewrite !map_app, !zsum_app.
        rewrite (zsum_ext _ (fun _ => 1) (zrange r (p - r))).
        * assert (G : forall l : list Z, zsum (map (fun _ => 1) l) = Z.of_nat (length l)) by (induction l as [|x l IH]; [reflexivity|]; cbn [map length]; rewrite zsum_cons, IH; lia). rewrite G, length_zrange.
          assert (P : forall l, 0 <= zsum (map (fun z => if (r <=? z) && (z <? p - r) then 1 else 0) l)) by (induction l as [|x l IH]; [cbn; lia|]; cbn [map]; rewrite zsum_cons; destruct (_ && _); lia).
          pose proof (P (zrange 0 r)). pose proof (P (zrange (p - r) n)). lia.
        * intros z Hz. apply in_zrange in Hz. destruct (Z.leb_spec r z), (Z.ltb_spec z (p - r)); try lia. reflexivity.
      + apply count_le. intros v Hv. destruct (Z.leb_spec r v), (Z.ltb_spec v (p - r)); cbn [andb]; try (destruct (Hb v) as [-> | ->]; lia).
        assert (E : F (block p) v = 1); [|lia]. unfold gmap. rewrite (map_ext_in _ (fun _ => 1)); [apply (const_map 1 v); right; reflexivity|].
        intros o Ho. apply in_zrange in Ho. unfold block. rewrite Z.mod_small by lia. destruct (Z.ltb_spec (v + o) p); [reflexivity|lia].
  Qed.

  Theorem single_kept q : exists q', forall z, F (single n q) z = single n q' z.
  Proof.
    assert (Hi : image1 = 1).
    { set (k := 2 * r + 1). set (p := m - k). assert (Hp : 0 <= p) by (unfold p, k; nia).
      destruct (dotted_facts p (Z.to_nat k) Hp) as (B1 & C1 & D1); [unfold p, k; nia|]. destruct (dotted_facts p (S (Z.to_nat k)) Hp) as (B2 & C2 & D2); [unfold p, k in *; nia|].
      destruct (Hkeep _ (dotted_periodic p (Z.to_nat k)) B1) as [K1 _]. destruct (Hkeep _ (dotted_periodic p (S (Z.to_nat k))) B2) as [_ K2].
      rewrite C1, D1 in K1. rewrite C2, D2 in K2. pose proof (image_block p ltac:(unfold p, k in *; lia)) as Hb. assert (0 <= k) by (unfold k; lia). rewrite Nat2Z.inj_succ in *. rewrite Z2Nat.id in * by lia.
      specialize (K1 ltac:(unfold p; lia)). specialize (K2 ltac:(unfold p; lia)). unfold p, k in *. clear - K1 K2 Hb Hr Hnm. nia. }
    apply is_single; [lia|apply gmap_periodic, single_periodic; lia|apply gmap_bits; [assumption|assumption|apply single_bits]|]. rewrite image_single. exact Hi.
  Qed.
End Preserve.

Lemma iter_ext r f s s' k : (forall z, s z = s' z) -> forall z, Nat.iter k (gmap r f) s z = Nat.iter k (gmap r f) s' z.
Proof. intros E. induction k as [|k IH]; [exact E|]. intros z. cbn [Nat.iter nat_rect]. apply gmap_ext. exact IH. Qed.
Lemma iter_shift {X} (F : X -> X) k x : Nat.iter k F (F x) = F (Nat.iter k F x).
Proof. induction k as [|k IH]; [reflexivity|]. cbn [Nat.iter nat_rect]. f_equal. exact IH. Qed.

Lemma ring_gmap n r f s k : 0 < n -> forall z, Nat.iter k (gmap r f) (fun y => s (y mod n)) z = ca_state (ring_nb n r) (fun _ _ l => f l) k s (z mod n).
Proof.
  intros Hn. induction k as [|k IH]; intros z; [reflexivity|]. change (f (map (fun o => Nat.iter k (gmap r f) (fun y => s (y mod n)) (z + o)) (zrange (- r) (r + 1))) = f (map (ca_state (ring_nb n r) (fun _ _ l => f l) k s) (map (fun d => (z mod n + d) mod n) (zrange (- r) (r + 1))))). f_equal. rewrite map_map. apply map_ext. intros o. rewrite Zplus_mod_idemp_l. exact (IH (z + o)).
Qed.

Lemma majority_bit n s : bit (majority n s).
Proof. unfold majority, bit. destruct (_ <? _); auto. Qed.
Lemma majority_low n m s : n = 2 * m + 1 -> (majority n s = 0 <-> count n s <= m).
Proof. intros ->. unfold majority. destruct (Z.ltb_spec (2 * m + 1) (2 * count (2 * m + 1) s)); split; intros; try discriminate; try reflexivity; lia. Qed.
Lemma majority_high n m s : n = 2 * m + 1 -> (majority n s = 1 <-> m + 1 <= count n s).
Proof. intros ->. unfold majority. destruct (Z.ltb_spec (2 * m + 1) (2 * count (2 * m + 1) s)); split; intros; try discriminate; try reflexivity; lia. Qed.
Lemma count_flip n s : 0 <= n -> count n (fun z => 1 - s z) = n - count n s.
Proof.
  intros Hn. assert (E : count n (fun z => (1 - s z) + s z) = n) by (rewrite (count_ext n _ (fun _ => 1)) by (intros; lia); rewrite count_const by lia; lia). rewrite count_add in E. lia.
Qed.

Theorem no_classifier n m r f T : n = 2 * m + 1 -> 1 <= m -> 0 <= r -> 2 * r * (2 * r + 3) <= m -> rule r f -> ~ classifies n r f T.
Proof.
  intros Hnm Hm1 Hr Hbig Hf H. set (F := gmap r f).
  assert (HT : forall s, periodic n s -> bits s -> forall z, Nat.iter T F s z = majority n s).
  { intros s Hp Hb z. rewrite (iter_ext r f s (fun y => s (y mod n)) T) by (intros y; symmetry; apply periodic_mod; [lia|assumption]). unfold F. rewrite ring_gmap by lia. apply H; [intros v _; apply Hb|apply Z.mod_pos_bound; lia]. }
  assert (Hs1 : majority n (single n 0) = 0) by (apply (majority_low n m _ Hnm); rewrite count_single by lia; lia).
  assert (Hend : count n (Nat.iter T F (single n 0)) = 0).
  { rewrite (count_ext n _ (fun _ => 0)); [rewrite count_const by lia; lia|]. intros v _. rewrite HT by (first [apply single_periodic; lia|apply single_bits]). exact Hs1. }
  assert (Hstep : forall s, periodic n s -> bits s -> majority n (F s) = F (fun _ => majority n s) 0).
  { intros s Hp Hb. rewrite <- (HT (F s) (gmap_periodic n r f s Hp) (gmap_bits r f s Hr Hf Hb) 0). rewrite iter_shift. apply gmap_ext. intros z. apply HT; assumption. }
  assert (Ba : forall a, bit a -> bit (F (fun _ => a) 0)) by (intros a Ha; apply gmap_bits; [assumption|assumption|intros z; assumption]).
  destruct (Ba 0 (or_introl eq_refl)) as [E0|E0]; destruct (Ba 1 (or_intror eq_refl)) as [E1|E1].
  - (* everything becomes 0 *) destruct T as [|T]; [cbn [Nat.iter nat_rect] in Hend; rewrite count_single in Hend by lia; lia|].
    assert (Hz : forall k z, Nat.iter (S k) F (fun _ => 1) z = 0).
    { induction k as [|k IH]; intros z; [exact E1|]. change (F (Nat.iter (S k) F (fun _ => 1)) z = 0). unfold F at 1. rewrite (gmap_ext r f _ (fun _ => 0)) by exact IH. exact E0. }
    pose proof (HT (fun _ => 1) (fun z => eq_refl) (fun z => or_intror eq_refl) 0) as E. rewrite Hz in E. symmetry in E. apply (majority_low n m _ Hnm) in E. rewrite count_const in E by lia. lia.
  - (* majorities are kept *)
    assert (Hkeep : forall s, periodic n s -> bits s -> (count n s <= m -> count n (gmap r f s) <= m) /\ (m + 1 <= count n s -> m + 1 <= count n (gmap r f s))).
    { intros s Hp Hb. pose proof (Hstep s Hp Hb) as E. split; intros Hc.
      - apply (majority_low n m _ Hnm) in Hc. rewrite Hc, E0 in E. apply (majority_low n m _ Hnm). exact E.
      - apply (majority_high n m _ Hnm) in Hc. rewrite Hc, E1 in E. apply (majority_high n m _ Hnm). exact E. }
    assert (G : forall k, exists q, forall z, Nat.iter k F (single n 0) z = single n q z).
    { induction k as [|k [q IH]]; [exists 0; reflexivity|]. destruct (single_kept n m r f Hnm Hr Hm1 Hbig Hf Hkeep q) as [q' Hq]. exists q'. intros z. rewrite <- Hq. cbn [Nat.iter nat_rect]. apply gmap_ext. exact IH. }
    destruct (G T) as [q Hq]. rewrite (count_ext n _ (single n q)) in Hend by (intros; apply Hq). rewrite count_single in Hend by lia. lia.
  - (* majorities are exchanged *)
    set (g := fun l => 1 - f l). set (h := fun l => f (map flip l)).
    assert (Hrg : rule r g) by (intros l Hl Hb; unfold g, bit; destruct (Hf l Hl Hb) as [-> | ->]; auto).
    assert (Hrh : rule r h).
    { intros l Hl Hb. apply Hf; [rewrite map_length; exact Hl|]. apply Forall_forall. intros a Ha. apply in_map_iff in Ha. destruct Ha as (b & <- & Hin). unfold is_bits in Hb. rewrite Forall_forall in Hb. unfold flip. destruct (Hb b Hin) as [-> | ->]; auto. }
    assert (Eh : forall s z, gmap r h s z = F (fun y => 1 - s y) z) by (intros s z; unfold gmap, h, F, gmap; rewrite map_map; reflexivity).
    assert (Hkg : forall s, periodic n s -> bits s -> (count n s <= m -> count n (gmap r g s) <= m) /\ (m + 1 <= count n s -> m + 1 <= count n (gmap r g s))).
    { intros s Hp Hb. pose proof (Hstep s Hp Hb) as E. assert (Ec : count n (gmap r g s) = n - count n (F s)) by (rewrite <- count_flip by lia; reflexivity). rewrite Ec. split; intros Hc.
      - apply (majority_low n m _ Hnm) in Hc. rewrite Hc, E0 in E. apply (majority_high n m _ Hnm) in E. lia.
      - apply (majority_high n m _ Hnm) in Hc. rewrite Hc, E1 in E. apply (majority_low n m _ Hnm) in E. lia. }
    assert (Hkh : forall s, periodic n s -> bits s -> (count n s <= m -> count n (gmap r h s) <= m) /\ (m + 1 <= count n s -> m + 1 <= count n (gmap r h s))).
    { intros s Hp Hb. assert (Hp' : periodic n (fun z => 1 - s z)) by (intros z; rewrite Hp; reflexivity). assert (Hb' : bits (fun z => 1 - s z)) by (intros z; unfold bit; destruct (Hb z) as [-> | ->]; auto).
      pose proof (Hstep _ Hp' Hb') as E. rewrite (count_ext n (gmap r h s) (F (fun z => 1 - s z))) by (intros; apply Eh). assert (Ec := count_flip n s ltac:(lia)). split; intros Hc.
      - assert (Hc' : majority n (fun z => 1 - s z) = 1) by (apply (majority_high n m _ Hnm); lia). rewrite Hc', E1 in E. apply (majority_low n m _ Hnm) in E. exact E.
      - assert (Hc' : majority n (fun z => 1 - s z) = 0) by (apply (majority_low n m _ Hnm); lia). rewrite Hc', E0 in E. apply (majority_high n m _ Hnm) in E. exact E. }
    assert (G : forall k, exists q, (forall z, Nat.iter k F (single n 0) z = single n q z) \/ (forall z, Nat.iter k F (single n 0) z = 1 - single n q z)).
    { induction k as [|k [q [IH|IH]]]; [exists 0; left; reflexivity| |].
      - destruct (single_kept n m r g Hnm Hr Hm1 Hbig Hrg Hkg q) as [q' Hq]. exists q'. right. intros z. rewrite <- Hq. cbn [Nat.iter nat_rect]. unfold F at 1. rewrite (gmap_ext r f _ (single n q)) by exact IH. unfold gmap, g. lia.
      - destruct (single_kept n m r h Hnm Hr Hm1 Hbig Hrh Hkh q) as [q' Hq]. exists q'. left. intros z. rewrite <- Hq, Eh. cbn [Nat.iter nat_rect]. apply gmap_ext. exact IH. }
    destruct (G T) as [q [Hq|Hq]]; rewrite (count_ext n _ _ (fun v _ => Hq v)) in Hend; [|rewrite count_flip in Hend by lia]; rewrite count_single in Hend by lia; lia.
  - (* everything becomes 1 *) destruct T as [|T]; [cbn [Nat.iter nat_rect] in Hend; rewrite count_single in Hend by lia; lia|].
    assert (Hz : forall k z, Nat.iter (S k) F (fun _ => 0) z = 1).
    { induction k as [|k IH]; intros z; [exact E0|]. change (F (Nat.iter (S k) F (fun _ => 0)) z = 1). unfold F at 1. rewrite (gmap_ext r f _ (fun _ => 1)) by exact IH. exact E1. }
    pose proof (HT (fun _ => 0) (fun z => eq_refl) (fun z => or_introl eq_refl) 0) as E. rewrite Hz in E. symmetry in E. apply (majority_high n m _ Hnm) in E. rewrite count_const in E by lia. lia.
Qed.

(** * Proofs: binary automata on rings *)
From Verif Require Import Py PyFacts ListFacts Network Topology TopologySpec Evolve EvolveSpec EvolveProofs EvolveStatic Rules RulesSpec RulesProofs CaSpec CaRun CaNets EcaSpec PropRules PropCa.
Open Scope string_scope.
Open Scope list_scope.
Open Scope Z_scope.

(** the rule number [N] as a table *)
Definition eca (N : Z) (v : Z) (a : Z) (l : list Z) : Z := Z.b2z (Z.testbit N (number 2 l)).
Lemma bit_eca N v a l : bit (eca N v a l).
Proof. unfold eca, bit. destruct (Z.testbit N (number 2 l)); auto. Qed.
Lemma bit_ca_state nb N k s v : (forall v, bit (s v)) -> bit (ca_state nb (eca N) k s v).
Proof. intros Hs. destruct k; [apply Hs|apply bit_eca]. Qed.

(** two automata related by a map of cells and a map of states *)
Lemma ca_conj {L A} (D : L -> Prop) (P : A -> Prop) nb (f f' : L -> A -> list A -> A) (pi : L -> L) (phi : A -> A) (s : L -> A) k :
  (forall v w, D v -> In w (nb v) -> D w) -> (forall v, D v -> D (pi v)) -> (forall v, D v -> P (s v)) ->
  (forall v t, D v -> (forall w, D w -> P (t w)) -> P (f v (t v) (map t (nb v)))) ->
  (forall v t, D v -> (forall w, D w -> P (t w)) -> f' v (phi (t (pi v))) (map (fun w => phi (t (pi w))) (nb v)) = phi (f (pi v) (t (pi v)) (map t (nb (pi v))))) ->
  forall v, D v -> ca_state nb f' k (fun w => phi (s (pi w))) v = phi (ca_state nb f k s (pi v)) /\ P (ca_state nb f k s v).
Proof.
  intros HD Hpi Hs HP Hf. induction k as [|k IH]; intros v Hv; [split; [reflexivity|apply Hs; assumption]|]. rewrite !ca_state_S. unfold ca_next. split.
  - rewrite <- Hf; [|assumption|intros w Hw; apply IH; assumption]. rewrite (proj1 (IH v Hv)). f_equal. apply map_ext_in. intros w Hw. apply IH. eapply HD; eassumption.
  - apply HP; [assumption|]. intros w Hw. apply IH. assumption.
Qed.

Section Run.
  Context {U I BA BN : Type}.
  Notation env := (env Z Z Z BA BN).
  Notation args := (@args Z Z Z U I).

  Lemma eca_run (W : env) fuel (u0 : U) n r N c T (g : args) (s : Z -> Z) : 3 <= n -> 0 <= r -> 2 * r + 1 <= n -> 0 <= N < 2 ^ (2 ^ (2 * r + 1)) ->
    static g (stateless (nks_ca_rule N)) -> 1 <= T -> (Z.to_nat T <= fuel)%nat -> Z.of_nat (length (to_dict W c)) = n ->
    (forall v, 0 <= v < n -> dget (to_dict W c) v = Some (s v) /\ bit (s v)) ->
    exists net hs, cellular_automaton n r true = Ok net /\ lattice net n (ring_nb n r) /\ runs W fuel u0 net c T g hs /\
      forall k S v, nth_error hs k = Some S -> 0 <= v < n -> dget S v = Some (ca_state (ring_nb n r) (eca N) k s v).
  Proof.
    intros Hn Hr H2r HN Hst HT Hf Hl Hs. destruct (ring_lattice n r Hn Hr H2r) as (net & E & Hlat). exists net. pose proof Hlat as (Hnd & Hnodes & Hcl & Hlen & Hnb & Hub).
    destruct (C80_global_map W fuel u0 net (ring_nb n r) c T g (nks_ca_rule N) (eca N) bit s Hst Hnd Hcl) as (hs & Hrun & _ & Hk).
    - intros v Hv. apply Hnb, Hnodes. assumption.
    - assumption.
    - assumption.
    - lia.
    - intros v Hv. apply Hs, Hnodes. assumption.
    - intros x Hx Hc Ha Hla. split; [|apply bit_eca]. apply C30_testbit; [exact Ha|]. rewrite Hla, length_ring_nb, Z2Nat.id by lia. assumption.
    - exists hs. split; [assumption|]. split; [assumption|]. split; [assumption|]. intros k S v Ek Hv. apply (Hk k S v Ek), Hnodes. assumption.
  Qed.
End Run.

(** the rule number with table [q], a table over the numbers below 2^m *)
Fixpoint of_bits (q : Z -> bool) (k : nat) : Z :=
  match k with O => 0 | S k' => Z.b2z (q (Z.of_nat k')) * 2 ^ Z.of_nat k' + of_bits q k' end.
Lemma of_bits_range q k : 0 <= of_bits q k < 2 ^ Z.of_nat k.
Proof.
  induction k as [|k IH]; [cbn; lia|]. cbn [of_bits]. rewrite Nat2Z.inj_succ, Z.pow_succ_r by lia. destruct (q (Z.of_nat k)); cbn [Z.b2z]; lia.
Qed.
Lemma of_bits_testbit q k i : 0 <= i < Z.of_nat k -> Z.testbit (of_bits q k) i = q i.
Proof.
  induction k as [|k IH]; intros Hi; [lia|]. cbn [of_bits]. pose proof (of_bits_range q k) as Hr.
  destruct (Z.eq_dec i (Z.of_nat k)) as [->|Hne].
  - apply (Z.testbit_unique _ _ _ (of_bits q k) 0); [assumption|lia].
  - rewrite <- IH by lia. rewrite <- (Z.mod_pow2_bits_low _ (Z.of_nat k) i) by lia. f_equal. symmetry. apply (Z.mod_unique _ _ (Z.b2z (q (Z.of_nat k)))); lia.
Qed.

Lemma bits_flip l : is_bits l -> is_bits (map flip l).
Proof. induction 1 as [|a l Ha Hl IH]; cbn [map]; constructor; [unfold flip; lia|assumption]. Qed.
Lemma bits_rev l : is_bits l -> is_bits (rev l).
Proof. apply Forall_rev. Qed.
Lemma flip_flip l : map flip (map flip l) = l.
Proof. rewrite map_map. rewrite <- (map_id l) at 2. apply map_ext. intros a. unfold flip. lia. Qed.

(** a rule number is determined by its table, and every table is the table of a rule number *)
Lemma table_number (m : nat) (q : list Z -> bool) : (1 <= m)%nat -> exists N, 0 <= N < 2 ^ (2 ^ Z.of_nat m) /\
  forall l, length l = m -> is_bits l -> Z.testbit N (number 2 l) = q l.
Proof.
  intros Hm. exists (of_bits (fun i => match int_to_bits i (Z.of_nat m) with Ok l => q l | Err _ => false end) (Z.to_nat (2 ^ Z.of_nat m))).
  assert (Hp : 0 < 2 ^ Z.of_nat m) by (apply Z.pow_pos_nonneg; lia). split.
  - pose proof (of_bits_range (fun i => match int_to_bits i (Z.of_nat m) with Ok l => q l | Err _ => false end) (Z.to_nat (2 ^ Z.of_nat m))) as Hr. rewrite Z2Nat.id in Hr by lia. assumption.
  - intros l Hl Hb. pose proof (number_range 2 l ltac:(lia) (proj1 (bits_states l) Hb)) as Hr. rewrite Hl in Hr. rewrite of_bits_testbit by (rewrite Z2Nat.id by lia; assumption).
    rewrite <- Hl, int_to_bits_of_bits; [reflexivity|intros ->; cbn in Hl; lia|assumption].
Qed.
Lemma table_unique (m : nat) M N : (1 <= m)%nat -> 0 <= M < 2 ^ (2 ^ Z.of_nat m) -> 0 <= N < 2 ^ (2 ^ Z.of_nat m) ->
  (forall l, length l = m -> is_bits l -> Z.testbit M (number 2 l) = Z.testbit N (number 2 l)) -> M = N.
Proof.
  intros Hm HM HN Ht. apply (C30_rules_distinct (L := unit) (V := unit) (I := unit) m M N HM HN); [|constructor; exact (mkCtx tt 0 [] [] [] [] 0 None None)].
  intros x Hb Hl. rewrite !C30_testbit by (first [assumption|rewrite Hl; assumption]). rewrite Ht by assumption. reflexivity.
Qed.

Lemma map_rev_bits (t : Z -> Z) l : (forall w, In w l -> bit (t w)) -> is_bits (map t l).
Proof. intros Ht. apply Forall_forall. intros a Ha. apply in_map_iff in Ha. destruct Ha as (w & <- & Hw). apply Ht. assumption. Qed.

Lemma zip_xor_map (t t' : Z -> Z) l : zip_xor (map t l) (map t' l) = map (fun w => zxor (t w) (t' w)) l.
Proof. induction l as [|w l IH]; [reflexivity|]. cbn. rewrite IH. reflexivity. Qed.
Lemma b2z_xor a b : Z.b2z (xorb a b) = zxor (Z.b2z a) (Z.b2z b).
Proof. destruct a, b; reflexivity. Qed.
Lemma zxor_bit a b : bit (zxor a b).
Proof. unfold bit, zxor. pose proof (Z.mod_pos_bound (a + b) 2 ltac:(lia)). lia. Qed.

Lemma linear_state n r N s s' k : 0 < n -> 0 <= r -> linear_rule (Z.to_nat (2 * r + 1)) N -> (forall v, 0 <= v < n -> bit (s v)) -> (forall v, 0 <= v < n -> bit (s' v)) ->
  forall v, 0 <= v < n -> ca_state (ring_nb n r) (eca N) k (fun v => zxor (s v) (s' v)) v = zxor (ca_state (ring_nb n r) (eca N) k s v) (ca_state (ring_nb n r) (eca N) k s' v) /\
    bit (ca_state (ring_nb n r) (eca N) k s v) /\ bit (ca_state (ring_nb n r) (eca N) k s' v).
Proof.
  intros Hn Hr Hlin Hs Hs'. induction k as [|k IH]; intros v Hv; [cbn; auto|]. rewrite !ca_state_S. unfold ca_next. split; [|split; apply bit_eca].
  assert (Hnb : forall w, In w (ring_nb n r v) -> 0 <= w < n) by (intros w Hw; apply in_map_iff in Hw; destruct Hw as (d & <- & _); apply Z.mod_pos_bound; lia).
  unfold eca. rewrite <- b2z_xor, <- Hlin, zip_xor_map.
  - do 3 f_equal. apply map_ext_in. intros w Hw. apply IH. auto.
  - rewrite map_length. apply length_ring_nb. assumption.
  - rewrite map_length. apply length_ring_nb. assumption.
  - apply map_rev_bits. intros w Hw. apply IH. auto.
  - apply map_rev_bits. intros w Hw. apply IH. auto.
Qed.

(** ** counting ones *)
Lemma zsum_cons x l : zsum (x :: l) = x + zsum l.
Proof. reflexivity. Qed.
Definition total (n : Z) (s : Z -> Z) : Z := zsum (map s (zrange 0 n)).

Lemma rotate_perm n j : 0 < n -> Permutation (map (fun v => (v + j) mod n) (zrange 0 n)) (zrange 0 n).
Proof.
  intros Hn. apply NoDup_Permutation.
  - apply NoDup_map_on; [|apply NoDup_zrange]. intros x y Hx Hy. apply in_zrange in Hx. apply in_zrange in Hy. apply mod_cancel; lia.
  - apply NoDup_zrange.
  - intros u. rewrite in_map_iff, in_zrange. split.
    + intros (v & <- & _). apply Z.mod_pos_bound. lia.
    + intros Hu. exists ((u - j) mod n). split; [rewrite Zplus_mod_idemp_l; rewrite Z.mod_small; lia|]. apply in_zrange. apply Z.mod_pos_bound. lia.
Qed.
Lemma total_rotate n j (s : Z -> Z) : 0 < n -> total n (fun v => s ((v + j) mod n)) = total n s.
Proof. intros Hn. unfold total. rewrite <- (zsum_perm _ _ (Permutation_map s (rotate_perm n j Hn))), map_map. reflexivity. Qed.
Lemma zsum_map_add {X} (f g : X -> Z) l : zsum (map (fun x => f x + g x) l) = zsum (map f l) + zsum (map g l).
Proof. induction l as [|x l IH]; [reflexivity|]. cbn [map]. rewrite !zsum_cons, IH. lia. Qed.
Lemma zsum_map_opp {X} (f : X -> Z) l : zsum (map (fun x => - f x) l) = - zsum (map f l).
Proof. induction l as [|x l IH]; [reflexivity|]. cbn [map]. rewrite !zsum_cons, IH. lia. Qed.

(** a rule that only moves: what a cell gains comes from the left, what it loses goes to the right *)
Lemma flux_total n N (phi : Z -> Z -> Z) s : 0 < n ->
  (forall a b c, bit a -> bit b -> bit c -> Z.b2z (Z.testbit N (number 2 [a; b; c])) = b + phi a b - phi b c) ->
  (forall v, 0 <= v < n -> bit (s v)) -> total n (ca_next (ring_nb n 1) (eca N) s) = total n s.
Proof.
  intros Hn Hphi Hs. set (F := fun v => phi (s ((v + -1) mod n)) (s v)).
  assert (E : total n (ca_next (ring_nb n 1) (eca N) s) = zsum (map (fun v => (s v + F v) + - F ((v + 1) mod n)) (zrange 0 n))).
  { unfold total. f_equal. apply map_ext_in. intros v Hv. apply in_zrange in Hv. unfold ca_next, eca, ring_nb. change (zrange (- (1)) (1 + 1)) with [-1; 0; 1]. cbn [map].
    rewrite Hphi by (apply Hs, Z.mod_pos_bound; lia). unfold F. rewrite Zplus_mod_idemp_l. rewrite Z.add_0_r, (Z.mod_small v) by lia.
    replace (v + 1 + -1) with v by lia. rewrite (Z.mod_small v) by lia. lia. }
  rewrite E, (zsum_map_add (fun v => s v + F v)), zsum_map_add, zsum_map_opp. change (zsum (map (fun v => F ((v + 1) mod n)) (zrange 0 n))) with (total n (fun v => F ((v + 1) mod n))).
  rewrite total_rotate by assumption. unfold total. lia.
Qed.

Lemma ones_total n S s : (forall v, 0 <= v < n -> dget S v = Some (s v) /\ bit (s v)) -> Z.of_nat (ones n S) = total n s.
Proof.
  intros Hs. unfold ones, total. assert (Hl : forall l, (forall v, In v l -> 0 <= v < n) -> Z.of_nat (length (filter (fun v => match dget S v with Some a => a =? 1 | None => false end) l)) = zsum (map s l)).
  { induction l as [|v l IH]; intros Hl; [reflexivity|]. cbn [filter map]. rewrite zsum_cons, <- IH by (intros; apply Hl; right; assumption).
    destruct (Hs v (Hl v (or_introl eq_refl))) as [E B]. rewrite E. destruct B as [-> | ->]; cbn [Z.eqb Pos.eqb length]; lia. }
  apply Hl. intros v Hv. apply in_zrange. assumption.
Qed.

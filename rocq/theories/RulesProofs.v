(** * Proofs about digits and the activity rules *)
From Coq Require Import Ascii.
From Verif Require Import Py PyFacts ListFacts Network Evolve Rules RulesSpec.
Open Scope list_scope.
Open Scope Z_scope.

(** ** digits *)
Lemma map_repeat' {X Y} (f : X -> Y) x k : map f (repeat x k) = repeat (f x) k.
Proof. induction k; cbn; congruence. Qed.

Lemma number_app b l l' : 0 <= b -> number b (l ++ l') = number b l * b ^ Z.of_nat (length l') + number b l'.
Proof.
  intros Hb. induction l as [|d l IH]; cbn [app number]; [lia|]. rewrite IH, app_length, Nat2Z.inj_add, Z.pow_add_r by lia. ring.
Qed.

Lemma number_range b l : 1 <= b -> is_states b l -> 0 <= number b l < b ^ Z.of_nat (length l).
Proof.
  intros Hb. induction 1 as [|d l Hd Hl IH]; cbn [number length]; [cbn; lia|].
  rewrite Nat2Z.inj_succ, Z.pow_succ_r by lia. set (p := b ^ Z.of_nat (length l)) in *. nia.
Qed.

Lemma digits_loop_range b fuel : 2 <= b -> forall num, is_states b (digits_loop b fuel num).
Proof.
  intros Hb. induction fuel as [|f IH]; intros num; cbn [digits_loop]; [constructor|]. destruct (num =? 0); [constructor|].
  constructor; [apply Z.mod_pos_bound; lia|apply IH].
Qed.

Lemma digits_loop_number b fuel : 2 <= b -> forall num, 0 <= num < b ^ Z.of_nat fuel -> number b (rev (digits_loop b fuel num)) = num.
Proof.
  intros Hb. induction fuel as [|f IH]; intros num Hn.
  - cbn in *. lia.
  - cbn [digits_loop]. destruct (Z.eqb_spec num 0) as [->|Hne]; [reflexivity|]. cbn [rev]. rewrite number_app by lia. rewrite IH.
    + cbn [number length]. change (Z.of_nat 1) with 1. change (Z.of_nat 0) with 0. rewrite Z.pow_1_r, Z.pow_0_r. pose proof (Z.div_mod num b ltac:(lia)). lia.
    + rewrite Nat2Z.inj_succ, Z.pow_succ_r in Hn by lia. split; [apply Z.div_pos; lia|apply Z.div_lt_upper_bound; lia].
Qed.

Lemma digits_loop_length b fuel : 2 <= b -> forall num, 0 < num < b ^ Z.of_nat fuel ->
  b ^ (Z.of_nat (length (digits_loop b fuel num)) - 1) <= num < b ^ Z.of_nat (length (digits_loop b fuel num)).
Proof.
  intros Hb. induction fuel as [|f IH]; intros num Hn; [cbn in *; lia|]. cbn [digits_loop]. destruct (Z.eqb_spec num 0); [lia|]. cbn [length].
  rewrite Nat2Z.inj_succ. unfold Z.succ. rewrite Z.add_simpl_r, Z.pow_add_r by lia. rewrite Z.pow_1_r. rewrite Nat2Z.inj_succ, Z.pow_succ_r in Hn by lia.
  destruct (Z.eq_dec (num / b) 0) as [E0|Hne].
  - rewrite E0. assert (El : digits_loop b f 0 = []) by (destruct f; reflexivity). rewrite El. cbn [length].
    pose proof (Z.div_small_iff num b ltac:(lia)). cbn. destruct (proj1 H E0); lia.
  - assert (0 < num / b) by (pose proof (Z.div_pos num b ltac:(lia) ltac:(lia)); lia).
    specialize (IH (num / b) ltac:(split; [assumption|apply Z.div_lt_upper_bound; lia])).
    set (m := length (digits_loop b f (num / b))) in *. assert (Hm : (m <> 0)%nat).
    { intros E. rewrite E in IH. cbn in IH. lia. }
    pose proof (Z.div_mod num b ltac:(lia)) as Ed. pose proof (Z.mod_pos_bound num b ltac:(lia)).
    replace (b ^ Z.of_nat m) with (b ^ (Z.of_nat m - 1) * b) in *.
    2: { rewrite <- (Z.pow_1_r b) at 2. rewrite <- Z.pow_add_r by lia. f_equal. lia. }
    set (p := b ^ (Z.of_nat m - 1)) in *. nia.
Qed.

Lemma digits_fuel_enough b num : 2 <= b -> 0 <= num -> num < b ^ Z.of_nat (digits_fuel num).
Proof.
  intros Hb Hn. unfold digits_fuel. rewrite Nat2Z.inj_succ, Z2Nat.id by apply Z.log2_nonneg.
  destruct (Z.eq_dec num 0) as [->|Hne]; [apply Z.pow_pos_nonneg; cbn; lia|].
  pose proof (Z.log2_spec num ltac:(lia)) as [_ Hl]. eapply Z.lt_le_trans; [exact Hl|]. apply Z.pow_le_mono_l. lia.
Qed.

(** a digit list read by position *)
Lemma number_nth b l i d : 1 <= b -> is_states b l -> nth_error l i = Some d ->
  d = digit b (number b l) (Z.of_nat (length l) - 1 - Z.of_nat i).
Proof.
  intros Hb Hl. revert i. induction Hl as [|x l Hx Hl IH]; intros i E; [destruct i; discriminate|]. unfold digit.
  pose proof (number_range b l Hb Hl) as Hr. destruct i as [|i]; cbn [nth_error] in E.
  - injection E as <-. cbn [length number]. rewrite Nat2Z.inj_succ. replace (Z.succ (Z.of_nat (length l)) - 1 - Z.of_nat 0) with (Z.of_nat (length l)) by lia.
    rewrite Z.add_comm, Z.div_add by lia. rewrite (Z.div_small (number b l)) by lia. rewrite Z.add_0_l. symmetry. apply Z.mod_small. lia.
  - rewrite (IH i E). unfold digit. cbn [length number]. assert (Hi : (i < length l)%nat) by (apply nth_error_Some; congruence). rewrite Nat2Z.inj_succ.
    replace (Z.succ (Z.of_nat (length l)) - 1 - Z.of_nat (S i)) with (Z.of_nat (length l) - 1 - Z.of_nat i) by lia.
    set (e := Z.of_nat (length l) - 1 - Z.of_nat i). assert (He : 0 <= e) by lia.
    replace (Z.of_nat (length l)) with ((Z.of_nat i + 1) + e) by lia. rewrite Z.pow_add_r, Z.mul_assoc, (Z.add_comm (x * _ * _)) by lia.
    rewrite Z.div_add by lia. rewrite Z.pow_add_r, Z.pow_1_r, Z.mul_assoc by lia. rewrite Z.mod_add by lia. reflexivity.
Qed.

Lemma number_inj b l l' : 1 <= b -> is_states b l -> is_states b l' -> length l = length l' -> number b l = number b l' -> l = l'.
Proof.
  intros Hb Hl Hl' Hlen E. apply nth_error_ext. intros i. destruct (nth_error l i) as [d|] eqn:E1, (nth_error l' i) as [d'|] eqn:E2.
  - rewrite (number_nth b l i d Hb Hl E1), (number_nth b l' i d' Hb Hl' E2), Hlen, E. reflexivity.
  - apply nth_error_None in E2. assert (i < length l)%nat by (apply nth_error_Some; congruence). lia.
  - apply nth_error_None in E1. assert (i < length l')%nat by (apply nth_error_Some; congruence). lia.
  - reflexivity.
Qed.

Lemma number_zeros b k l : number b (repeat 0 k ++ l) = number b l.
Proof. induction k as [|k IH]; cbn [repeat app number]; [reflexivity|]. rewrite IH. lia. Qed.

Lemma is_states_zeros b k l : 1 <= b -> is_states b l -> is_states b (repeat 0 k ++ l).
Proof. intros Hb Hl. induction k; cbn; [assumption|]. constructor; [lia|assumption]. Qed.

Lemma is_states_rev b l : is_states b l -> is_states b (rev l).
Proof. intros Hl. apply Forall_rev. assumption. Qed.

Lemma bits_states l : is_bits l <-> is_states 2 l.
Proof. unfold is_bits, is_states. rewrite !Forall_forall. split; intros Hx b Hb; specialize (Hx b Hb); lia. Qed.

(** ** bits *)
Lemma enumerate_snoc {X} (l : list X) x : enumerate (l ++ [x]) = enumerate l ++ [(length l, x)].
Proof.
  unfold enumerate. rewrite app_length. cbn [length]. rewrite Nat.add_1_r, seq_S. cbn [Nat.add].
  assert (Hg : forall (a : list nat) (b : list X) c d, length a = length b -> combine (a ++ [c]) (b ++ [d]) = combine a b ++ [(c, d)]).
  { induction a as [|y a IH]; destruct b as [|z b]; cbn; intros; try discriminate; [reflexivity|]. f_equal. apply IH. congruence. }
  apply Hg. apply seq_length.
Qed.

Lemma bits_to_int_number bits : is_bits bits -> bits_to_int bits = number 2 bits.
Proof.
  unfold bits_to_int. induction 1 as [|b l Hb Hl IH]; [reflexivity|]. cbn [rev number]. rewrite enumerate_snoc, fold_left_app. rewrite IH. cbn [fold_left fst snd].
  rewrite rev_length, Z.shiftl_mul_pow2 by lia. destruct Hb as [->| ->]; cbn [Z.eqb]; lia.
Qed.

Lemma bin_digits_spec num : 0 <= num -> exists ds, bin_digits num = Ok ds /\ is_bits ds /\ number 2 ds = num /\ ds <> [] /\
  (forall d, 1 <= d -> (Z.of_nat (length ds) <= d <-> num < 2 ^ d)).
Proof.
  intros Hn. unfold bin_digits. destruct (Z.ltb_spec num 0); [lia|]. pose proof (digits_fuel_enough 2 num ltac:(lia) Hn) as Hf.
  set (l := digits_loop 2 (digits_fuel num) num) in *. destruct (Z.eq_dec num 0) as [->|Hne].
  - exists [0]. cbn. split; [reflexivity|]. split; [constructor; [auto|constructor]|]. split; [reflexivity|]. split; [discriminate|].
    intros d Hd. split; [intros _; apply Z.pow_pos_nonneg; lia|]. lia.
  - pose proof (digits_loop_length 2 (digits_fuel num) ltac:(lia) num ltac:(lia)) as Hlen. fold l in Hlen.
    assert (Hl : l <> []) by (intros E; rewrite E in Hlen; cbn in Hlen; lia).
    exists (rev l). assert (Hr : rev l <> []) by (intros E; apply (f_equal (@rev Z)) in E; rewrite rev_involutive in E; auto).
    split; [destruct (rev l); [congruence|reflexivity]|]. split; [apply bits_states, is_states_rev, digits_loop_range; lia|].
    split; [apply digits_loop_number; lia|]. split; [assumption|]. rewrite rev_length. intros d Hd. split.
    + intros Hle. eapply Z.lt_le_trans; [apply Hlen|]. apply Z.pow_le_mono_r; lia.
    + intros Hlt. destruct (Z.le_gt_cases (Z.of_nat (length l)) d); [assumption|]. exfalso.
      assert (2 ^ d <= 2 ^ (Z.of_nat (length l) - 1)) by (apply Z.pow_le_mono_r; lia). lia.
Qed.

Lemma int_to_bits_spec num d : 0 <= num -> 1 <= d ->
  (num < 2 ^ d -> exists bits, int_to_bits num d = Ok bits /\ is_bits bits /\ Z.of_nat (length bits) = d /\ number 2 bits = num) /\
  (2 ^ d <= num -> int_to_bits num d = Err ValueError).
Proof.
  intros Hn Hd. destruct (bin_digits_spec num Hn) as (ds & E & Hb & Hv & Hne & Hlen). unfold int_to_bits. rewrite E. cbn [rbind]. split.
  - intros Hlt. apply (Hlen d Hd) in Hlt. destruct (Z.ltb_spec (d - Z.of_nat (length ds)) 0); [lia|]. eexists. split; [reflexivity|].
    split; [apply bits_states, is_states_zeros; [lia|apply bits_states; assumption]|]. split; [rewrite app_length, repeat_length; lia|].
    rewrite number_zeros. assumption.
  - intros Hge. destruct (Z.ltb_spec (d - Z.of_nat (length ds)) 0); [reflexivity|]. exfalso. assert (num < 2 ^ d) by (apply Hlen; lia). lia.
Qed.

Lemma int_to_bits_zero_width num : int_to_bits num 0 = Err ValueError.
Proof.
  unfold int_to_bits. destruct (Z_lt_le_dec num 0) as [Hn|Hn].
  - unfold bin_digits. destruct (Z.ltb_spec num 0); [reflexivity|lia].
  - destruct (bin_digits_spec num Hn) as (ds & E & _ & _ & Hne & _). rewrite E. cbn [rbind]. destruct ds; [congruence|]. cbn [length].
    destruct (Z.ltb_spec (0 - Z.of_nat (S (length ds))) 0); [reflexivity|lia].
Qed.

Lemma int_to_bits_of_bits bits : bits <> [] -> is_bits bits -> int_to_bits (number 2 bits) (Z.of_nat (length bits)) = Ok bits.
Proof.
  intros Hne Hb. pose proof (number_range 2 bits ltac:(lia) (proj1 (bits_states _) Hb)) as Hr. assert (1 <= Z.of_nat (length bits)) by (destruct bits; [congruence|cbn [length]; lia]).
  destruct (proj1 (int_to_bits_spec (number 2 bits) (Z.of_nat (length bits)) ltac:(lia) ltac:(lia)) ltac:(lia)) as (bs & E & Hbs & Hl & Hv).
  rewrite E. f_equal. apply (number_inj 2); try (apply bits_states; assumption); lia.
Qed.

Lemma py_nth_at {X} (l : list X) i : 0 <= i < Z.of_nat (length l) -> exists x, nth_error l (Z.to_nat i) = Some x /\ py_nth l i = Some x.
Proof.
  intros Hi. destruct (nth_error l (Z.to_nat i)) as [x|] eqn:E; [|apply nth_error_None in E; lia]. exists x. split; [reflexivity|].
  unfold py_nth, py_index. destruct (Z.leb_spec 0 i); [|lia]. destruct (Z.ltb_spec i (Z.of_nat (length l))); [|lia]. exact E.
Qed.

Section WithContexts.
  Context {L V I : Type}.
  Notation ctx := (node_ctx L V Z I).

  Lemma binary_ca_spec rule nks (x : ctx) : is_bits (x_nacts x) ->
    let m := 2 ^ Z.of_nat (length (x_nacts x)) in
    (0 <= rule < 2 ^ m -> binary_ca_rule rule nks x = Ok (digit 2 rule (if nks then number 2 (x_nacts x) else m - 1 - number 2 (x_nacts x)))) /\
    (rule < 0 \/ 2 ^ m <= rule -> binary_ca_rule rule nks x = Err ValueError).
  Proof.
    intros Hb m. unfold binary_ca_rule. rewrite bits_to_int_number by assumption. fold m.
    pose proof (number_range 2 (x_nacts x) ltac:(lia) (proj1 (bits_states _) Hb)) as Hr. fold m in Hr. split.
    - intros Hrule. destruct (proj1 (int_to_bits_spec rule m ltac:(lia) ltac:(lia)) ltac:(lia)) as (bits & E & Hbits & Hl & Hv). rewrite E. cbn [rbind].
      destruct (py_nth_at bits (if nks then m - 1 - number 2 (x_nacts x) else number 2 (x_nacts x)) ltac:(destruct nks; lia)) as (d & Ed & Ep).
      rewrite Ep. cbn [of_opt]. f_equal. rewrite (number_nth 2 bits _ d ltac:(lia) (proj1 (bits_states _) Hbits) Ed), Hv. f_equal. destruct nks; lia.
    - intros [Hn|Hn].
      + unfold int_to_bits, bin_digits. destruct (Z.ltb_spec rule 0); [reflexivity|lia].
      + assert (0 <= rule) by (pose proof (Z.pow_nonneg 2 m ltac:(lia)); lia).
        rewrite (proj2 (int_to_bits_spec rule m ltac:(lia) ltac:(lia)) Hn). reflexivity.
  Qed.

  (** ** totalistic *)
  Lemma digit_char_inv d base : 0 <= d < base -> base <= 36 -> int_of_char (digit_char d) base = Ok d.
  Proof.
    intros Hd Hb. unfold int_of_char, digit_char. rewrite N_ascii_embedding by (destruct (d <? 10); lia).
    rewrite Z2N.id by (destruct (Z.ltb_spec d 10); lia).
    destruct (Z.ltb_spec d 10).
    - replace (48 <=? 48 + d) with true by lia. replace (48 + d <=? 57) with true by lia. cbn [andb].
      replace (48 + d - 48) with d by lia. destruct (Z.ltb_spec d base); [reflexivity|lia].
    - replace (48 <=? 55 + d) with true by lia. replace (55 + d <=? 57) with false by lia. cbn [andb].
      replace (65 <=? 55 + d) with true by lia. replace (55 + d <=? 90) with true by lia. cbn [andb].
      replace (55 + d - 55) with d by lia. destruct (Z.ltb_spec d base); [reflexivity|lia].
  Qed.
  Lemma digit_char_sign d : 0 <= d < 36 -> digit_char d <> "-"%char /\ digit_char d <> "+"%char.
  Proof.
    intros Hd. split; intros E; apply (f_equal (fun c => int_of_char c 36)) in E; rewrite digit_char_inv in E by lia; discriminate.
  Qed.
  Lemma digit_char_0 : digit_char 0 = "0"%char.
  Proof. reflexivity. Qed.

  (** the digit string of a non-negative number *)
  Lemma base_repr_spec number0 base : 2 <= base <= 36 -> 0 <= number0 -> exists ds, base_repr number0 base = Ok (map digit_char ds) /\ is_states base ds /\
    number base ds = number0 /\ ds <> [] /\ (forall d, 1 <= d -> (Z.of_nat (length ds) <= d <-> number0 < base ^ d)).
  Proof.
    intros Hb Hn. unfold base_repr. destruct (Z.ltb_spec 36 base); [lia|]. destruct (Z.ltb_spec base 2); [lia|]. destruct (Z.ltb_spec number0 0); [lia|].
    cbn [orb app]. rewrite Z.abs_eq by lia. pose proof (digits_fuel_enough base number0 ltac:(lia) Hn) as Hf.
    set (l := digits_loop base (digits_fuel number0) number0) in *. destruct (Z.eq_dec number0 0) as [->|Hne].
    - exists [0]. cbn. split; [reflexivity|]. split; [constructor; [lia|constructor]|]. split; [reflexivity|]. split; [discriminate|].
      intros d Hd. split; [intros _; apply Z.pow_pos_nonneg; lia|]. lia.
    - pose proof (digits_loop_length base (digits_fuel number0) ltac:(lia) number0 ltac:(lia)) as Hlen. fold l in Hlen.
      assert (Hl : l <> []) by (intros E; rewrite E in Hlen; cbn in Hlen; lia).
      exists (rev l). assert (Hr : rev l <> []) by (intros E; apply (f_equal (@rev Z)) in E; rewrite rev_involutive in E; auto).
      split; [rewrite map_rev; destruct (rev (map digit_char l)) eqn:Er; [|reflexivity];
              apply (f_equal (@length ascii)) in Er; rewrite rev_length, map_length in Er; destruct l; [congruence|discriminate]|].
      split; [apply is_states_rev, digits_loop_range; lia|]. split; [apply digits_loop_number; lia|]. split; [assumption|].
      rewrite rev_length. intros d Hd. split.
      + intros Hle. eapply Z.lt_le_trans; [apply Hlen|]. apply Z.pow_le_mono_r; lia.
      + intros Hlt. destruct (Z.le_gt_cases (Z.of_nat (length l)) d); [assumption|]. exfalso.
        assert (base ^ d <= base ^ (Z.of_nat (length l) - 1)) by (apply Z.pow_le_mono_r; lia). lia.
  Qed.

  Lemma zfill_digits base ds w : 2 <= base <= 36 -> is_states base ds -> ds <> [] ->
    zfill (map digit_char ds) w = map digit_char (repeat 0 (Z.to_nat (w - Z.of_nat (length ds))) ++ ds).
  Proof.
    intros Hb Hds Hne. unfold zfill. rewrite map_length. destruct ds as [|d ds]; [congruence|]. inversion Hds; subst. cbn [map].
    destruct (digit_char_sign d ltac:(lia)) as [H1' H2']. destruct (ascii_dec (digit_char d) "-"); [contradiction|]. destruct (ascii_dec (digit_char d) "+"); [contradiction|].
    rewrite map_app, map_repeat'. reflexivity.
  Qed.

  (** a padded digit string of the right width *)
  Lemma padded_repr number0 base w : 2 <= base <= 36 -> 0 <= number0 < base ^ w -> 1 <= w -> exists ds,
    (s <- base_repr number0 base ;; Ok (zfill s w)) = Ok (map digit_char ds) /\ is_states base ds /\ number base ds = number0 /\ Z.of_nat (length ds) = w.
  Proof.
    intros Hb Hn Hw. destruct (base_repr_spec number0 base Hb ltac:(lia)) as (ds & E & Hs & Hv & Hne & Hlen). rewrite E. cbn [rbind].
    rewrite (zfill_digits base) by assumption. eexists. split; [reflexivity|]. pose proof (proj2 (Hlen w Hw) ltac:(lia)).
    split; [apply is_states_zeros; [lia|assumption]|]. split; [rewrite number_zeros; assumption|]. rewrite app_length, repeat_length. lia.
  Qed.

  Lemma totalistic_spec k rule (x : ctx) : 2 <= k <= 36 -> 0 <= rule -> x_nacts x <> [] -> is_states k (x_nacts x) ->
    let w := Z.of_nat (length (x_nacts x)) * (k - 1) + 1 in
    (rule < k ^ w -> totalistic_ca k rule x = Ok (digit k rule (zsum (x_nacts x)))) /\
    (k ^ w <= rule -> totalistic_ca k rule x = Err (Raise "rule number out of range")).
  Proof.
    intros Hk Hr Hne Hs w. unfold totalistic_ca. fold w. replace (Z.of_nat (length (x_nacts x)) * (k - 1) - zsum (x_nacts x)) with (w - 1 - zsum (x_nacts x)) by lia.
    assert (Hsum : 0 <= zsum (x_nacts x) <= w - 1).
    { unfold w. clear - Hs Hk. induction Hs as [|s l Hx Hl IH]; cbn [zsum length]; [lia|]. rewrite Nat2Z.inj_succ. nia. }
    assert (Hw : 1 <= w) by lia.
    destruct (base_repr_spec rule k Hk Hr) as (ds & E & Hds & Hv & Hdne & Hlen). rewrite E. cbn [rbind]. rewrite (zfill_digits k) by assumption.
    rewrite map_length, app_length, repeat_length. split; intros Hlt.
    - pose proof (proj2 (Hlen w Hw) Hlt). destruct (Z.ltb_spec w (Z.of_nat (Z.to_nat (w - Z.of_nat (length ds)) + length ds))); [lia|].
      set (l := repeat 0 (Z.to_nat (w - Z.of_nat (length ds))) ++ ds).
      assert (Hll : Z.of_nat (length l) = w) by (unfold l; rewrite app_length, repeat_length; lia).
      destruct (py_nth_at (map digit_char l) (w - 1 - zsum (x_nacts x)) ltac:(rewrite map_length; lia)) as (c & Ec & Ep).
      rewrite Ep. destruct (x_nacts x) as [|a l0] eqn:Ex; [congruence|]. rewrite <- Ex in *. cbn [of_opt rbind].
      rewrite nth_error_map in Ec. destruct (nth_error l (Z.to_nat (w - 1 - zsum (x_nacts x)))) as [d|] eqn:Ed; [|discriminate]. injection Ec as <-.
      assert (Hl : is_states k l) by (apply is_states_zeros; [lia|assumption]).
      assert (Hd : 0 <= d < k) by (eapply (proj1 (Forall_forall _ _) Hl); eapply nth_error_In; exact Ed).
      rewrite digit_char_inv by lia. f_equal. rewrite (number_nth k l _ d ltac:(lia) Hl Ed). unfold l at 1. rewrite number_zeros, Hv. f_equal. lia.
    - destruct (Z.ltb_spec w (Z.of_nat (Z.to_nat (w - Z.of_nat (length ds)) + length ds))); [reflexivity|].
      exfalso. assert (rule < k ^ w) by (apply Hlen; lia). lia.
  Qed.

  Lemma totalistic_bad_k k rule (x : ctx) : k < 2 \/ 36 < k -> totalistic_ca k rule x = Err ValueError.
  Proof.
    intros Hk. unfold totalistic_ca, base_repr. destruct (Z.ltb_spec 36 k), (Z.ltb_spec k 2); try reflexivity; lia.
  Qed.
End WithContexts.

Lemma digit_range b n i : 1 <= b -> 0 <= digit b n i < b.
Proof. intros Hb. apply Z.mod_pos_bound. lia. Qed.

(** ** majority *)
Lemma occurs_count l x : occurs l x = count l x.
Proof.
  induction l as [|y l IH]; [reflexivity|]. cbn [occurs]. rewrite IH. change (y :: l) with ([y] ++ l). rewrite count_app. f_equal.
  unfold count. cbn [filter]. destruct (Z.eq_dec y x) as [->|E]; [rewrite eqb_refl; reflexivity|]. rewrite (proj2 (eqb_false x y)) by congruence. reflexivity.
Qed.

Lemma occurs_app l l' x : occurs (l ++ l') x = (occurs l x + occurs l' x)%nat.
Proof. induction l as [|y l IH]; cbn [app occurs]; [reflexivity|]. rewrite IH. lia. Qed.
Lemma occurs_pos l x : (0 < occurs l x)%nat <-> In x l.
Proof. induction l as [|y l IH]; cbn [occurs In]; [split; [lia|tauto]|]. destruct (Z.eq_dec y x); rewrite <- IH; [split; [auto|lia]|]. split; [intros; right; lia|]. intros [?|?]; [contradiction|lia]. Qed.

Lemma counter_spec l : NoDup (dkeys (counter l)) /\ (forall x, dget (counter l) x = if in_dec Z.eq_dec x l then Some (occurs l x) else None).
Proof.
  unfold counter. induction l as [|y l IH] using rev_ind; [split; [constructor|intros x; reflexivity]|]. rewrite fold_left_app. cbn [fold_left].
  destruct IH as [Hnd Hg]. split; [apply NoDup_dset; assumption|]. intros x. destruct (Z.eq_dec x y) as [->|Hne].
  - rewrite dget_dset_eq, Hg, occurs_app. cbn [occurs]. destruct (Z.eq_dec y y); [|congruence].
    destruct (in_dec Z.eq_dec y (l ++ [y])) as [_|Hn]; [|exfalso; apply Hn, in_or_app; cbn; auto].
    destruct (in_dec Z.eq_dec y l) as [Hi|Hi]; [f_equal; lia|]. destruct (occurs l y) eqn:Eo; [reflexivity|]. exfalso. apply Hi, occurs_pos. lia.
  - rewrite dget_dset_ne by congruence. rewrite Hg, occurs_app. cbn [occurs]. destruct (Z.eq_dec y x); [congruence|]. rewrite !Nat.add_0_r.
    destruct (in_dec Z.eq_dec x l) as [Hi|Hi], (in_dec Z.eq_dec x (l ++ [y])) as [Hj|Hj]; try reflexivity.
    + exfalso. apply Hj, in_or_app. auto.
    + exfalso. apply in_app_or in Hj. destruct Hj as [|[|[]]]; [contradiction|congruence].
Qed.

Lemma insert_common_perm p l : Permutation (insert_common p l) (p :: l).
Proof. induction l as [|q l IH]; cbn [insert_common]; [constructor; constructor|]. destruct (snd q <? snd p)%nat; [reflexivity|]. rewrite IH. apply perm_swap. Qed.
Lemma most_common_perm d : Permutation (most_common d) d.
Proof.
  unfold most_common. assert (Hg : forall acc, Permutation (fold_left (fun acc p => insert_common p acc) d acc) (acc ++ d)).
  { induction d as [|p d IH]; intros acc; cbn; [rewrite app_nil_r; reflexivity|]. rewrite IH, insert_common_perm. cbn. apply Permutation_middle. }
  apply (Hg []).
Qed.
(** decreasing frequencies *)
Fixpoint desc (l : list (Z * nat)) : Prop := match l with [] => True | p :: l' => (forall q, In q l' -> (snd q <= snd p)%nat) /\ desc l' end.
Lemma insert_common_desc p l : desc l -> desc (insert_common p l).
Proof.
  induction l as [|q l IH]; cbn [insert_common desc]; [split; [intros q []|trivial]|]. intros [Hq Hl]. destruct (Nat.ltb_spec (snd q) (snd p)).
  - cbn. split; [|split; assumption]. intros r [<-|Hr]; [lia|]. specialize (Hq r Hr). lia.
  - cbn. split; [|apply IH; assumption]. intros r Hr. apply (Permutation_in _ (insert_common_perm p l)) in Hr. destruct Hr as [<-|Hr]; [lia|auto].
Qed.
Lemma most_common_desc d : desc (most_common d).
Proof.
  unfold most_common. assert (Hg : forall acc, desc acc -> desc (fold_left (fun acc p => insert_common p acc) d acc)).
  { induction d as [|p d IH]; intros acc Ha; cbn; [assumption|]. apply IH, insert_common_desc. assumption. }
  apply Hg. exact I.
Qed.

Lemma NoDup_fst_eq {X} (l : list (Z * X)) : NoDup (map fst l) -> NoDup l.
Proof. apply NoDup_map_inv. Qed.

(** the table holds exactly the values of the highest frequency *)
Lemma top_counts_spec l : NoDup (map fst (top_counts l)) /\ (forall v c, In (v, c) (top_counts l) <-> most_frequent l v /\ c = occurs l v).
Proof.
  unfold top_counts. destruct (counter_spec l) as [Hnd Hg]. pose proof (most_common_perm (counter l)) as Hp. pose proof (most_common_desc (counter l)) as Hd.
  assert (Hnd' : NoDup (map fst (most_common (counter l)))) by (eapply Permutation_NoDup; [symmetry; apply Permutation_map; exact Hp|exact Hnd]).
  assert (Hin : forall v c, In (v, c) (most_common (counter l)) <-> In v l /\ c = occurs l v).
  { intros v c. transitivity (dget (counter l) v = Some c); [split; [intros Hx; apply dget_in; [assumption|eapply Permutation_in; eassumption]|intros Hx; apply dget_some_in in Hx; eapply Permutation_in; [symmetry; exact Hp|exact Hx]]|]. rewrite Hg. destruct (in_dec Z.eq_dec v l); split; intros Hx; try (split; [assumption|congruence]); try discriminate; try tauto. destruct Hx as [_ ->]. reflexivity. }
  destruct (most_common (counter l)) as [|[v0 c0] t] eqn:Em.
  - split; [constructor|]. intros v c. split; [intros []|]. intros [[Hv _] ->]. apply (Hin v (occurs l v)). auto.
  - match goal with |- context[?F t] => set (prefix := F) end. destruct Hd as [Hmax Hd].
    assert (Hpre : forall t', desc t' -> (forall q, In q t' -> (snd q <= c0)%nat) -> (forall q, In q (prefix t') <-> In q t' /\ snd q = c0) /\ (NoDup (map fst t') -> NoDup (map fst (prefix t')))).
    { induction t' as [|q t' IH]; intros Ht' Hm'; [split; [cbn; tauto|auto]|]. cbn [prefix snd] in *. fold prefix. destruct Ht' as [Hq Ht']. destruct (Nat.eqb_spec (snd q) c0) as [Eq|Nq].
      - destruct (IH Ht' ltac:(intros; apply Hm'; right; assumption)) as [H1 H2]. split.
        + intros r. cbn [In]. rewrite H1. split; [intros [<-|[? ?]]; auto|]. intros [[<-|?] ?]; auto.
        + cbn [map]. intros Hn. inversion Hn as [|? ? Ha Hb]; subst. constructor; [|apply H2; assumption]. intros Hx. apply Ha. apply in_map_iff in Hx. destruct Hx as (r & <- & Hr). apply in_map. apply H1. assumption.
      - split; [|intros _; constructor]. intros r. split; [intros []|]. intros [[<-|Hr] E]; [congruence|]. specialize (Hq r Hr). specialize (Hm' q (or_introl eq_refl)). lia. }
    destruct (Hpre t Hd ltac:(intros q Hq; apply Hmax; assumption)) as [H1 H2]. cbn [map] in Hnd'. inversion Hnd' as [|? ? Ha Hb]; subst.
    assert (H0 : In v0 l /\ c0 = occurs l v0) by (apply Hin; left; reflexivity).
    assert (Hmx : forall y, In y l -> (occurs l y <= c0)%nat).
    { intros y Hy. destruct (proj2 (Hin y (occurs l y)) (conj Hy eq_refl)) as [E|Hy']; [injection E; lia|]. apply (Hmax _ Hy'). }
    assert (Hmx' : forall y, (occurs l y <= c0)%nat).
    { intros y. destruct (occurs l y) eqn:Eo; [lia|]. rewrite <- Eo. apply Hmx, occurs_pos. lia. }
    split.
    + cbn [map fst]. constructor; [|apply H2; assumption]. intros Hx. apply Ha. apply in_map_iff in Hx. destruct Hx as (r & <- & Hr). apply in_map, H1. assumption.
    + intros v c. cbn [In]. rewrite H1. cbn [snd]. unfold most_frequent. split.
      * intros [E|[Hv Ec]]; [injection E as <- <-; destruct H0; split; [split; [assumption|]|assumption]; intros y; specialize (Hmx' y); lia|].
        destruct (proj1 (Hin v c) (or_intror Hv)) as [Hv' ->]. split; [split; [assumption|intros y; specialize (Hmx' y); lia]|reflexivity].
      * intros [[Hv Hy] ->]. assert (occurs l v = c0) by (specialize (Hy v0); specialize (Hmx v Hv); lia).
        destruct (proj2 (Hin v (occurs l v)) (conj Hv eq_refl)) as [E|Hv']; [left; assumption|right; auto].
Qed.

Section Majority.
  Context {L V I : Type}.
  Notation ctx := (node_ctx L V Z I).

  Lemma most_frequent_exists l : l <> [] -> exists v, most_frequent l v.
  Proof.
    intros Hne. destruct (top_counts_spec l) as [_ Ht]. destruct (top_counts l) as [|[v c] t] eqn:E.
    - exfalso. unfold top_counts in E. destruct (most_common (counter l)) eqn:Em; [|discriminate].
      destruct l as [|y l]; [congruence|]. pose proof (most_common_perm (counter (y :: l))) as Hp. rewrite Em in Hp. apply Permutation_nil in Hp.
      destruct (counter_spec (y :: l)) as [_ Hg]. specialize (Hg y). rewrite Hp in Hg. destruct (in_dec Z.eq_dec y (y :: l)) as [|Hn]; [discriminate|apply Hn; left; reflexivity].
    - exists v. apply (Ht v c). left. reflexivity.
  Qed.

  Lemma strict_mode_unique l v : strict_mode l v -> forall w, most_frequent l w -> w = v.
  Proof.
    intros [Hv Hs] w [Hw Hm]. destruct (Z.eq_dec w v) as [|Hn]; [assumption|]. specialize (Hs w Hw Hn). specialize (Hm v). lia.
  Qed.
  Lemma strict_mode_most l v : strict_mode l v -> most_frequent l v.
  Proof.
    intros [Hv Hs]. split; [assumption|]. intros y. destruct (Z.eq_dec y v) as [->|Hn]; [lia|].
    destruct (in_dec Z.eq_dec y l) as [Hi|Hi]; [specialize (Hs y Hi Hn); lia|]. destruct (occurs l y) eqn:Eo; [lia|]. exfalso. apply Hi, occurs_pos. lia.
  Qed.

  Lemma majority_strict draw (x : ctx) v : strict_mode (x_nacts x) v -> majority_rule draw x = Ok v.
  Proof.
    intros Hs. unfold majority_rule. destruct (top_counts_spec (x_nacts x)) as [Hnd Ht].
    destruct (top_counts (x_nacts x)) as [|[w c] t].
    - exfalso. apply (Ht v (occurs (x_nacts x) v)). split; [apply strict_mode_most; assumption|reflexivity].
    - assert (w = v) as ->. { apply (strict_mode_unique (x_nacts x) v Hs). apply (Ht w c). left. reflexivity. }
      destruct t as [|[w' c'] t]; [reflexivity|]. exfalso. cbn [map fst] in Hnd. inversion Hnd as [|? ? Ha _]; subst. apply Ha. left.
      apply (strict_mode_unique (x_nacts x) v Hs). apply (Ht w' c'). right. left. reflexivity.
  Qed.

  Lemma majority_tie (x : ctx) : x_nacts x <> [] -> (~ exists v, strict_mode (x_nacts x) v) ->
    forall a, In a (x_nacts x) <-> exists draw, majority_rule draw x = Ok a.
  Proof.
    intros Hne Hns a. destruct (top_counts_spec (x_nacts x)) as [Hnd Ht].
    assert (Hm : forall draw, majority_rule draw x = of_opt IndexError (nth_error (x_nacts x) (draw mod length (x_nacts x)))).
    { intros draw. unfold majority_rule. destruct (top_counts (x_nacts x)) as [|[w c] [|]]; try (destruct (x_nacts x); [congruence|reflexivity]).
      exfalso. apply Hns. exists w. destruct (proj1 (Ht w c) (or_introl eq_refl)) as [[Hw Hmax] ->]. split; [assumption|]. intros y Hy Hn.
      specialize (Hmax y). destruct (Nat.eq_dec (occurs (x_nacts x) y) (occurs (x_nacts x) w)) as [E|]; [|lia].
      exfalso. apply Hn. assert (Hy' : In (y, occurs (x_nacts x) y) [(w, occurs (x_nacts x) w)]).
      { apply Ht. split; [|reflexivity]. split; [assumption|]. intros z. rewrite E. destruct (proj1 (Ht w (occurs (x_nacts x) w)) (or_introl eq_refl)) as [[_ Hz] _]. apply Hz. }
      destruct Hy' as [Ey|[]]. congruence. }
    split.
    - intros Ha. apply In_nth_error in Ha. destruct Ha as [i Hi]. exists i. rewrite Hm. assert (i < length (x_nacts x))%nat by (apply nth_error_Some; congruence).
      rewrite Nat.mod_small by assumption. rewrite Hi. reflexivity.
    - intros [draw E]. rewrite Hm in E. destruct (nth_error (x_nacts x) (draw mod length (x_nacts x))) eqn:En; [|discriminate]. injection E as <-. eapply nth_error_In. exact En.
  Qed.
End Majority.

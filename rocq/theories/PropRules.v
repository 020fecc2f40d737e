(** Property theorems for the activity rules (C29 - C34) and progress of evolve (C65). *)
From Verif Require Import Py PyFacts ListFacts Network Topology Evolve EvolveSpec EvolveProofs EvolveStatic Rules RulesSpec RulesProofs LifeProofs PropEvolve.
Open Scope string_scope.
Open Scope list_scope.
Open Scope Z_scope.

(** C29 *)
Theorem C29_number_roundtrip : forall num d, 0 <= num < 2 ^ d -> 1 <= d ->
  exists bits, int_to_bits num d = Ok bits /\ Z.of_nat (length bits) = d /\ is_bits bits /\ bits_to_int bits = num.
Proof.
  intros num d Hn Hd. destruct (proj1 (int_to_bits_spec num d ltac:(lia) Hd) ltac:(lia)) as (bits & E & Hb & Hl & Hv).
  exists bits. rewrite bits_to_int_number by assumption. auto.
Qed.
Print Assumptions C29_number_roundtrip.

Theorem C29_bits_roundtrip : forall bits, bits <> [] -> is_bits bits ->
  int_to_bits (bits_to_int bits) (Z.of_nat (length bits)) = Ok bits.
Proof. intros bits Hne Hb. rewrite bits_to_int_number by assumption. apply int_to_bits_of_bits; assumption. Qed.
Print Assumptions C29_bits_roundtrip.

(** what the digits mean, independently of the two functions *)
Theorem C29_value : forall bits, is_bits bits -> bits_to_int bits = number 2 bits.
Proof. exact bits_to_int_number. Qed.
Print Assumptions C29_value.

Theorem C29_raises : forall num d, num < 0 \/ d < 1 \/ 2 ^ d <= num -> int_to_bits num d = Err ValueError.
Proof.
  intros num d Hc. destruct (Z_lt_le_dec num 0) as [Hn|Hn].
  - unfold int_to_bits, bin_digits. destruct (Z.ltb_spec num 0); [reflexivity|lia].
  - destruct (Z_lt_le_dec d 1) as [Hd|Hd].
    + destruct (bin_digits_spec num Hn) as (ds & E & _ & _ & Hne & _). unfold int_to_bits. rewrite E. cbn [rbind]. destruct ds; [congruence|]. cbn [length].
      destruct (Z.ltb_spec (d - Z.of_nat (S (length ds))) 0); [reflexivity|lia].
    + apply int_to_bits_spec; lia.
Qed.
Print Assumptions C29_raises.

(** the empty list is not recovered *)
Theorem C29_empty_refuted : exists bits, is_bits bits /\ int_to_bits (bits_to_int bits) (Z.of_nat (length bits)) <> Ok bits.
Proof. exists []. split; [constructor|]. vm_compute. discriminate. Qed.
Print Assumptions C29_empty_refuted.

Example C29_nonvacuous : int_to_bits 11 6 = Ok [0; 0; 1; 0; 1; 1] /\ bits_to_int [0; 0; 1; 0; 1; 1] = 11 /\ int_to_bits 11 3 = Err ValueError.
Proof. vm_compute. splits; reflexivity. Qed.

Section Theorems.
  Context {L V I : Type}.
  Notation ctx := (node_ctx L V Z I).

  (** C30 *)
  Theorem C30_nks : forall N (x : ctx), is_bits (x_nacts x) -> 0 <= N < 2 ^ (2 ^ Z.of_nat (length (x_nacts x))) ->
    nks_ca_rule N x = Ok (digit 2 N (number 2 (x_nacts x))) /\
    binary_ca_rule N false x = Ok (digit 2 N (2 ^ Z.of_nat (length (x_nacts x)) - 1 - number 2 (x_nacts x))).
  Proof. intros N x Hb HN. split; [exact (proj1 (binary_ca_spec N true x Hb) HN)|exact (proj1 (binary_ca_spec N false x Hb) HN)]. Qed.

  (** the bit in terms of the standard library *)
  Theorem C30_testbit : forall N (x : ctx), is_bits (x_nacts x) -> 0 <= N < 2 ^ (2 ^ Z.of_nat (length (x_nacts x))) ->
    nks_ca_rule N x = Ok (Z.b2z (Z.testbit N (number 2 (x_nacts x)))).
  Proof.
    intros N x Hb HN. rewrite (proj1 (C30_nks N x Hb HN)). f_equal. unfold digit.
    pose proof (number_range 2 (x_nacts x) ltac:(lia) (proj1 (bits_states _) Hb)). rewrite Z.testbit_spec' by lia. reflexivity.
  Qed.

  Theorem C30_bit : forall N s (x : ctx) a, is_bits (x_nacts x) -> binary_ca_rule N s x = Ok a -> a = 0 \/ a = 1.
  Proof.
    intros N s x a Hb E. destruct (binary_ca_spec N s x Hb) as [H1 H2].
    destruct (Z_lt_le_dec N 0) as [Hn|Hn]; [rewrite H2 in E by auto; discriminate|].
    destruct (Z_lt_le_dec N (2 ^ (2 ^ Z.of_nat (length (x_nacts x))))) as [Hlt|Hge]; [|rewrite H2 in E by auto; discriminate].
    rewrite H1 in E by auto. injection E as <-. pose proof (digit_range 2 N (if s then number 2 (x_nacts x) else 2 ^ Z.of_nat (length (x_nacts x)) - 1 - number 2 (x_nacts x)) ltac:(lia)). lia.
  Qed.

  Theorem C30_raises : forall N s (x : ctx), is_bits (x_nacts x) -> N < 0 \/ 2 ^ (2 ^ Z.of_nat (length (x_nacts x))) <= N ->
    binary_ca_rule N s x = Err ValueError.
  Proof. intros N s x Hb HN. apply (binary_ca_spec N s x Hb). assumption. Qed.

  (** two rule numbers in range are different rules *)
  Theorem C30_rules_distinct : forall (m : nat) (M N : Z), 0 <= M < 2 ^ (2 ^ Z.of_nat m) -> 0 <= N < 2 ^ (2 ^ Z.of_nat m) ->
    (forall x : ctx, is_bits (x_nacts x) -> length (x_nacts x) = m -> nks_ca_rule M x = nks_ca_rule N x) -> inhabited ctx -> M = N.
  Proof.
    intros m M N HM HN Heq [x0]. apply Z.bits_inj'. intros i Hi.
    destruct (Z_lt_le_dec i (2 ^ Z.of_nat m)) as [Hlt|Hge].
    - destruct (Nat.eq_dec m 0) as [->|Hm].
      + assert (i = 0) as -> by (cbn in Hlt; lia).
        set (x := mkCtx (x_label x0) (x_time x0) (x_acts x0) (x_nbrs x0) [] (x_conn x0) (x_cur x0) (x_past x0) (x_input x0)).
        specialize (Heq x ltac:(constructor) eq_refl). rewrite !C30_testbit in Heq by (first [exact (Forall_nil _)|assumption]). injection Heq as Heq.
        apply Z.b2z_inj in Heq. exact Heq.
      + destruct (proj1 (int_to_bits_spec i (Z.of_nat m) Hi ltac:(lia)) Hlt) as (bits & _ & Hb & Hl & Hv).
        set (x := mkCtx (x_label x0) (x_time x0) (x_acts x0) (x_nbrs x0) bits (x_conn x0) (x_cur x0) (x_past x0) (x_input x0)).
        assert (Hlen : length bits = m) by lia. specialize (Heq x Hb Hlen). rewrite !C30_testbit in Heq by (cbn [x_nacts x]; rewrite ?Hlen; assumption). injection Heq as Heq.
        apply Z.b2z_inj in Heq. cbn [x_nacts x] in Heq. rewrite Hv in Heq. exact Heq.
    - assert (Hz : forall K, 0 <= K < 2 ^ (2 ^ Z.of_nat m) -> Z.testbit K i = false).
      { intros K HK. destruct (Z.eq_dec K 0) as [->|Hne]; [apply Z.bits_0|]. apply Z.bits_above_log2; [lia|]. apply Z.log2_lt_pow2; [lia|].
        eapply Z.lt_le_trans; [apply HK|]. apply Z.pow_le_mono_r; lia. }
      rewrite !Hz by assumption. reflexivity.
  Qed.

  (** C31 *)
  Theorem C31_totalistic : forall k N (x : ctx), 2 <= k <= 36 -> x_nacts x <> [] -> is_states k (x_nacts x) ->
    0 <= N < k ^ (Z.of_nat (length (x_nacts x)) * (k - 1) + 1) ->
    totalistic_ca k N x = Ok (digit k N (zsum (x_nacts x))) /\ 0 <= digit k N (zsum (x_nacts x)) < k.
  Proof. intros k N x Hk Hne Hs HN. split; [apply totalistic_spec; lia || assumption|apply digit_range; lia]. Qed.

  Theorem C31_raises : forall k N (x : ctx), is_states k (x_nacts x) ->
    (k < 2 \/ 36 < k -> totalistic_ca k N x = Err ValueError) /\
    (2 <= k <= 36 -> x_nacts x <> [] -> k ^ (Z.of_nat (length (x_nacts x)) * (k - 1) + 1) <= N -> exists m, totalistic_ca k N x = Err (Raise m)).
  Proof.
    intros k N x Hs. split; [apply totalistic_bad_k|]. intros Hk Hne HN. eexists. apply totalistic_spec; try assumption.
    assert (0 <= k ^ (Z.of_nat (length (x_nacts x)) * (k - 1) + 1)) by (apply Z.pow_nonneg; lia). lia.
  Qed.

  Theorem C31_order_irrelevant : forall k N (x y : ctx), Permutation (x_nacts x) (x_nacts y) -> totalistic_ca k N x = totalistic_ca k N y.
  Proof.
    intros k N x y Hp. unfold totalistic_ca. rewrite (zsum_perm _ _ Hp), (Permutation_length Hp).
    destruct (x_nacts x) as [|a l] eqn:Ex, (x_nacts y) as [|b l'] eqn:Ey; try reflexivity.
    - apply Permutation_nil in Hp. discriminate.
    - symmetry in Hp. apply Permutation_nil in Hp. discriminate.
  Qed.

  (** C32. [draw] is the outcome of the random choice. *)
  Theorem C32_unique_mode : forall draw (x : ctx) v, strict_mode (x_nacts x) v -> majority_rule draw x = Ok v.
  Proof. exact majority_strict. Qed.

  Theorem C32_tie : forall (x : ctx), x_nacts x <> [] -> (~ exists v, strict_mode (x_nacts x) v) ->
    forall a, In a (x_nacts x) <-> exists draw, majority_rule draw x = Ok a.
  Proof. exact majority_tie. Qed.

  Theorem C32_empty : forall draw (x : ctx), x_nacts x = [] -> majority_rule draw x = Err ValueError.
  Proof. intros draw x E. unfold majority_rule. rewrite E. reflexivity. Qed.

  (** C34 *)
  Theorem C34_wireworld : forall x : ctx,
    (x_cur x = 0 -> wireworld_rule x = Some 0) /\
    (x_cur x = 1 -> wireworld_rule x = Some 2) /\
    (x_cur x = 2 -> wireworld_rule x = Some 3) /\
    (x_cur x = 3 -> wireworld_rule x = Some 1 <-> occurs (x_nacts x) 1 = 1%nat \/ occurs (x_nacts x) 1 = 2%nat) /\
    (x_cur x = 3 -> wireworld_rule x = Some 3 <-> occurs (x_nacts x) 1 <> 1%nat /\ occurs (x_nacts x) 1 <> 2%nat) /\
    (0 <= x_cur x <= 3 -> exists s, wireworld_rule x = Some s /\ 0 <= s <= 3) /\
    (~ 0 <= x_cur x <= 3 -> wireworld_rule x = None).
  Proof.
    intros x. unfold wireworld_rule. rewrite !occurs_count. set (c := count (x_nacts x) 1).
    destruct (Z.eqb_spec (x_cur x) 0), (Z.eqb_spec (x_cur x) 1), (Z.eqb_spec (x_cur x) 2), (Z.eqb_spec (x_cur x) 3), (Nat.eqb_spec c 1), (Nat.eqb_spec c 2); cbn [orb];
      try lia; repeat split; intros; try lia; try reflexivity; try congruence; try (eexists; split; [reflexivity|lia]); try tauto.
  Qed.
End Theorems.
Print Assumptions C30_nks.
Print Assumptions C30_testbit.
Print Assumptions C30_bit.
Print Assumptions C30_raises.
Print Assumptions C30_rules_distinct.
Print Assumptions C31_totalistic.
Print Assumptions C31_raises.
Print Assumptions C31_order_irrelevant.
Print Assumptions C32_unique_mode.
Print Assumptions C32_tie.
Print Assumptions C32_empty.
Print Assumptions C34_wireworld.

Definition nctx (l : list Z) (c : Z) : node_ctx Z Z Z Z := mkCtx 0 1 [] [] l [] c None None.

Example C30_nonvacuous : is_bits [1; 1; 0] /\ nks_ca_rule 110 (nctx [1; 1; 0] 1) = Ok 1 /\ nks_ca_rule 110 (nctx [1; 0; 0] 1) = Ok 0 /\
  map (fun b => nks_ca_rule 30 (nctx b 0)) [[1;1;1]; [1;1;0]; [1;0;1]; [1;0;0]; [0;1;1]; [0;1;0]; [0;0;1]; [0;0;0]] = map Ok [0; 0; 0; 1; 1; 1; 1; 0] /\
  binary_ca_rule 30 false (nctx [0; 1; 1] 0) = Ok 1 /\ nks_ca_rule 256 (nctx [0; 1; 1] 0) = Err ValueError.
Proof. split; [repeat (constructor; [auto|]); constructor|]. vm_compute. splits; reflexivity. Qed.

(** k = 12: digits above 9; 777 is the code of a known 3-colour rule *)
Example C31_nonvacuous : is_states 3 [2; 1; 2] /\ totalistic_ca 3 777 (nctx [2; 1; 2] 1) = Ok 0 /\ totalistic_ca 3 777 (nctx [1; 0; 1] 0) = Ok 2 /\
  totalistic_ca 12 (11 * 12 ^ 5 + 3) (nctx [2; 3; 0] 1) = Ok 11 /\ totalistic_ca 3 (3 ^ 7) (nctx [2; 1; 2] 1) = Err (Raise "rule number out of range") /\
  totalistic_ca 37 1 (nctx [2] 1) = Err ValueError.
Proof. split; [repeat constructor; lia|]. vm_compute. splits; reflexivity. Qed.

Example C32_nonvacuous : strict_mode [0; 1; 1; 2] 1 /\ majority_rule 3 (nctx [0; 1; 1; 2] 0) = Ok 1.
Proof. split; [|reflexivity]. split; [cbn; auto|]. cbn. intros y [<-|[<-|[<-|[<-|[]]]]] Hn; cbn; try lia; congruence. Qed.

(** a tie between 1 and 2; the state 0, which occurs once only, is returned *)
Theorem C32_tie_not_most_frequent_refuted : exists draw x a, majority_rule (L:=Z) (V:=Z) (I:=Z) draw x = Ok a /\ ~ most_frequent (x_nacts x) a.
Proof.
  exists 0%nat, (nctx [0; 1; 1; 2; 2] 0), 0. split; [vm_compute; reflexivity|]. intros [_ Hm]. specialize (Hm 1). vm_compute in Hm. lia.
Qed.
Print Assumptions C32_tie_not_most_frequent_refuted.

Example C34_nonvacuous : wireworld_rule (nctx [0; 1; 3; 1] 3) = Some 1 /\ wireworld_rule (nctx [1; 1; 3; 1] 3) = Some 3 /\ wireworld_rule (nctx [] 7) = None.
Proof. vm_compute. splits; reflexivity. Qed.

(** C33: the run succeeds, all states are 0/1 grids, and each is Conway's successor of the one before. The initial conditions
    are any dict or list that gives every cell a 0 or a 1. *)
Theorem C33_game_of_life : forall (U I BA BN : Type) (W : env Z Z Z BA BN) rows cols ordered fuel (u0 : U) c T (g : @args Z Z Z U I),
  3 <= rows -> 3 <= cols ->
  g_rule g = Some (stateless game_of_life_rule) /\ g_topo g = None /\ g_pert g = None /\ g_memo g = false /\ g_comp g = false /\ g_pact g = true ->
  1 <= T -> (Z.to_nat T <= fuel)%nat ->
  Z.of_nat (length (to_dict W c)) = rows * cols -> grid01 (rows * cols) (to_dict W c) ->
  exists net uf traj hs, cellular_automaton2d rows cols 1 "Moore" ordered = Ok net /\
    evolve W fuel u0 net (Some c) (Some T) None g = Ok (uf, traj) /\ Z.of_nat (length hs) = T /\
    Forall2 (fun s S => activities W s = Ok (Some S)) traj hs /\ Forall (grid01 (rows * cols)) hs /\
    nth_error hs 0 = Some (to_dict W c) /\
    forall k S S' a b, nth_error hs k = Some S -> nth_error hs (Datatypes.S k) = Some S' -> 0 <= a < rows -> 0 <= b < cols ->
      alive cols S' (a, b) = conway rows cols S a b.
Proof. intros U I BA BN W rows cols ordered fuel u0 c T g Hr Hc Hg. exact (game_of_life W rows cols ordered fuel u0 c T g Hr Hc Hg). Qed.
Print Assumptions C33_game_of_life.

(** a glider on a 5x5 torus, by the model of the whole pipeline *)
Definition glider : list Z := [0;1;0;0;0; 0;0;1;0;0; 1;1;1;0;0; 0;0;0;0;0; 0;0;0;0;0].
Definition life_args : @args Z Z Z Z Z := base (Some (stateless game_of_life_rule)) None None [] ACTIVITIES_FIRST true.
Example C33_nonvacuous : grid01 25 (to_dict W0 (CList glider)) /\
  match cellular_automaton2d 5 5 1 "Moore" true with
  | Ok net => match evolve W0 10 0 net (Some (CList glider)) (Some 5) None life_args with
              | Ok (_, traj) => match nth_error traj 4 with
                                | Some s => match activities W0 s with
                                            | Ok (Some d) => map (value d) (zrange 0 25)
                                            | _ => []
                                            end
                                | None => []
                                end
              | Err _ => []
              end
  | Err _ => []
  end = [0;0;0;0;0; 0;0;1;0;0; 0;0;0;1;0; 0;1;1;1;0; 0;0;0;0;0].
Proof.
  split; [|vm_compute; reflexivity]. intros v Hv. apply in_zrange in Hv. vm_compute in Hv.
  repeat (destruct Hv as [<-|Hv]; [vm_compute; auto|]). contradiction.
Qed.

(** on grids with a side of 2 cells the neighbours coincide and the rule is not Conway's: a 2x5 torus *)
Theorem C33_small_grid_refuted : exists net l u traj S, cellular_automaton2d 2 5 1 "Moore" true = Ok net /\ grid01 10 (to_dict W0 (CList l)) /\
  evolve W0 2 0 net (Some (CList l)) (Some 2) None life_args = Ok (u, traj) /\
  option_map (activities W0) (nth_error traj 1) = Some (Ok (Some S)) /\
  alive 5 S (0, 0) <> conway 2 5 (to_dict W0 (CList l)) 0 0.
Proof.
  assert (E : exists net, cellular_automaton2d 2 5 1 "Moore" true = Ok net) by (eexists; vm_compute; reflexivity). destruct E as [net E]. exists net.
  pose (l := [1;1;0;0;0; 1;1;0;0;0]). exists l.
  assert (E2 : exists p, match cellular_automaton2d 2 5 1 "Moore" true with Ok net => evolve W0 2 0 net (Some (CList l)) (Some 2) None life_args | Err e => Err e end = Ok p
     /\ exists S, option_map (activities W0) (nth_error (snd p) 1) = Some (Ok (Some S)) /\ alive 5 S (0, 0) <> conway 2 5 (to_dict W0 (CList l)) 0 0).
  { eexists. split; [vm_compute; reflexivity|]. eexists. split; [vm_compute; reflexivity|]. vm_compute. discriminate. }
  rewrite E in E2. destruct E2 as ([u traj] & Ev & d & Es & Hne). exists u, traj, d. split; [assumption|]. split; [|auto].
  intros v Hv. apply in_zrange in Hv. vm_compute in Hv. repeat (destruct Hv as [<-|Hv]; [vm_compute; auto|]). contradiction.
Qed.
Print Assumptions C33_small_grid_refuted.

(** C65: on a network that does not change, evolve never raises: if every node has a neighbourhood of nodes, the initial
    conditions give every node an activity, and the (stateless) rule does not raise on the contexts it can get, then the run
    of T timesteps succeeds and visits T states, each the synchronous update of the one before. *)
Theorem C65_progress : forall (L V A U I BA BN : Type) (EL : EqD L) (EA : EqD A) (W : env L V A BA BN) fuel (u0 : U) n c T (g : @args L V A U I) h
    (Inv : list (dict L A) -> Prop),
  g_rule g = Some (stateless h) /\ g_topo g = None /\ g_pert g = None /\ g_memo g = false /\ g_comp g = false /\ g_pact g = true ->
  NoDup (nodes n) -> 1 <= T -> (Z.to_nat T <= fuel)%nat -> length (to_dict W c) = net_len n ->
  (forall v, In v (nodes n) -> exists conn l, in_edges n v = Ok conn /\ nbrs_of n v l /\ incl l (nodes n)) ->
  (forall v, In v (nodes n) -> exists a, dget (to_dict W c) v = Some a) ->
  Inv [to_dict W c] ->
  (forall hist S v x, Inv (hist ++ [S]) -> In v (nodes n) ->
     ctx_for W n S (Z.of_nat (length hist) + 1) (past_of W (g_past g) (hist ++ [S])) (InStr "__timestep__") v x -> exists a, h x = Ok a) ->
  (forall hist S S', Inv (hist ++ [S]) -> covers n S' ->
     updated W h None n S (Z.of_nat (length hist) + 1) (past_of W (g_past g) (hist ++ [S])) (InStr "__timestep__") S' -> Inv ((hist ++ [S]) ++ [S'])) ->
  exists uf traj hs, evolve W fuel u0 n (Some c) (Some T) None g = Ok (uf, traj) /\ Z.of_nat (length hs) = T /\
    Forall2 (fun s S => activities W s = Ok (shown_acts S)) traj hs /\ Inv hs /\ nth_error hs 0 = Some (to_dict W c) /\
    forall k S S', nth_error hs k = Some S -> nth_error hs (Datatypes.S k) = Some S' ->
      updated W h None n S (Z.of_nat k + 1) (past_of W (g_past g) (firstn (Datatypes.S k) hs)) (InStr "__timestep__") S'.
Proof. intros L V A U I BA BN EL EA W fuel u0 n c T g h Inv Hst. exact (stateless_run W fuel u0 n c T g h Inv Hst). Qed.
Print Assumptions C65_progress.

(** a ring of five cells with a rule that never raises; the hypotheses hold with no invariant at all *)
Definition sum_rule (x : node_ctx Z Z Z Z) : res Z := Ok (zsum (x_nacts x) mod 3).
Example C65_nonvacuous : exists uf traj, evolve W0 50 0 ring5 (Some (CList [1; 0; 2; 0; 1])) (Some 50) None (base (Some (stateless sum_rule)) None None [] SYNCHRONOUS false) = Ok (uf, traj).
Proof.
  destruct (C65_progress Z Z Z Z Z unit unit _ _ W0 50 0 ring5 (CList [1; 0; 2; 0; 1]) 50 (base (Some (stateless sum_rule)) None None [] SYNCHRONOUS false) sum_rule (fun _ => True))
    as (uf & traj & hs & E & _).
  - vm_compute. auto 10.
  - nodup.
  - lia.
  - lia.
  - reflexivity.
  - intros v Hv. vm_compute in Hv. repeat (destruct Hv as [<-|Hv]; [eexists; eexists; splits; [vm_compute; reflexivity|vm_compute; reflexivity|intros w Hw; vm_compute in *; tauto]|]). contradiction.
  - intros v Hv. vm_compute in Hv. repeat (destruct Hv as [<-|Hv]; [eexists; vm_compute; reflexivity|]). contradiction.
  - trivial.
  - intros. eexists. reflexivity.
  - trivial.
  - eauto.
Qed.
